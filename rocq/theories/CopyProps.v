(** Theorems for C17-C21 and C67 (copying of data). *)
From Verif Require Import CopyModel CopySpec CopyProofs CopyProofs2 Utf8Model Utf8Spec Utf8Proofs.
Open Scope Z_scope.

(** Reading always comes to an end (the theorems below are not vacuous). *)
Theorem c17_reads_exist : forall r, (exists ds e, chunk_reads r ds e) /\ (exists ds e, line_reads r ds e).
Proof. intro r. split; [apply chunk_reads_total|apply line_reads_total]. Qed.
Print Assumptions c17_reads_exist.

Definition ex_reader : sreader := {| sr_buf := [104]; sr_in := [[195]; []; [169; 10; 98]]; sr_end := EndEof |}.
Example ex_reader_reads : chunk_reads ex_reader [[104; 195]; [169; 10; 98]] None.
Proof.
  eapply ans_data; [reflexivity|discriminate|]. eapply ans_data; [reflexivity|discriminate|]. eapply ans_eof. reflexivity.
Qed.

(** C17, C67: a bytearray or BytesIO receives exactly the bytes read, after the
    old contents (append) or instead of them; all of the output if the stream
    ended normally or the copy was cancelled while waiting, a prefix if it
    failed; and the copy ends the way the stream ended. *)
Theorem c17_bytes_exact :
  forall r ds e append b m, chunk_reads r ds e ->
  exists got rest, sr_data r = got ++ rest /\ ((sr_end r = EndEof \/ sr_end r = EndCancel) -> rest = [])
  /\ copy_bytearray ds e (set_position_bytearray append b) = ((if append then b else []) ++ got, end_exn (sr_end r))
  /\ m_data (fst (copy_bytesio ds e (set_position_mem append m))) = (if append then m_data m else []) ++ got
  /\ snd (copy_bytesio ds e (set_position_mem append m)) = end_exn (sr_end r).
Proof. intros. now apply copy_bytes_exact. Qed.
Print Assumptions c17_bytes_exact.

(** ... and so does a StreamWriter, which is then closed. *)
Theorem c17_streamwriter_exact :
  forall r ds e dr closed, chunk_reads r ds e -> all_drained dr -> sr_end r = EndEof ->
  let (log, x) := copy_streamwriter dr closed 0 ds e in
  written log = sr_data r /\ closes log = 1%nat /\ nothing_after_close log /\ x = closed.
Proof.
  intros r ds e dr closed H Hd He. rewrite copy_streamwriter_spec by exact Hd.
  destruct (chunk_reads_spec _ _ _ H) as ((got & A & B) & -> & _). rewrite He. cbn [end_exn].
  rewrite A, (B (or_introl He)), app_nil_r, written_map. cbn [written]. rewrite app_nil_r. split; [reflexivity|].
  unfold closes. rewrite filter_app. split; [|split; [|reflexivity]].
  - rewrite app_length. cbn. replace (filter _ (map Write ds)) with (@nil wevent); [reflexivity|].
    clear. induction ds; cbn; auto.
  - clear. induction ds as [|d ds IH]; cbn; auto.
Qed.
Print Assumptions c17_streamwriter_exact.

Example c17_example :
  copy_bytearray [[104; 195]; [169; 10; 98]] None (set_position_bytearray true [1]) = ([1; 104; 195; 169; 10; 98], None)
  /\ copy_bytearray [[104; 195]; [169; 10; 98]] None (set_position_bytearray false [1]) = ([104; 195; 169; 10; 98], None).
Proof. split; reflexivity. Qed.

(** C67 for a sink that is read to the end. *)
Theorem c67_replace_and_append :
  forall r ds e append b m t, chunk_reads r ds e -> sr_end r = EndEof -> utf8_decode (sr_data r) = Some t ->
  fst (copy_bytearray ds e (set_position_bytearray append b)) = (if append then b else []) ++ sr_data r
  /\ m_data (fst (copy_bytesio ds e (set_position_mem append m))) = (if append then m_data m else []) ++ sr_data r
  /\ m_data (fst (copy_stringio utf8_decode ds e (set_position_mem append m))) = (if append then m_data m else []) ++ t.
Proof.
  intros r ds e append b m t H He Ht.
  destruct (copy_bytes_exact r ds e append b m H) as (got & rest & A & B & C & D & _).
  rewrite (B (or_introl He)), app_nil_r in A. subst got. rewrite C, D. repeat split.
  destruct (copy_text_exact utf8_decode r ds e append m H) as (got & rest' & A & B' & F & _).
  rewrite (B' (or_introl He)), app_nil_r in A. subst got. destruct (F t Ht) as (F1 & _). exact F1.
Qed.
Print Assumptions c67_replace_and_append.
Example c67_example :
  m_data (fst (copy_bytesio [[1; 2]; [3]] None (set_position_mem true {| m_data := [7; 8; 9]; m_pos := 1 |}))) = [7; 8; 9; 1; 2; 3]
  /\ m_data (fst (copy_bytesio [[1; 2]; [3]] None (set_position_mem false {| m_data := [7; 8; 9]; m_pos := 1 |}))) = [1; 2; 3]
  /\ m_data (fst (copy_bytesio [[1]; [3]] None {| m_data := [7; 8; 9]; m_pos := 1 |})) = [7; 1; 3].
Proof. repeat split; reflexivity. Qed.

(** C18: the buffer holds the first [limit] bytes, and the stream is read to
    its end (one read per chunk and the final one). *)
Theorem c18_error_limit :
  forall r ds e limit, chunk_reads r ds e -> 0 <= limit ->
  exists got rest, sr_data r = got ++ rest /\ ((sr_end r = EndEof \/ sr_end r = EndCancel) -> rest = [])
  /\ copy_bytearray_limit ds e limit [] = (firstn (Z.to_nat limit) got, end_exn (sr_end r), S (List.length ds)).
Proof. intros. now apply copy_limit_exact. Qed.
Print Assumptions c18_error_limit.
Example c18_example : copy_bytearray_limit [[1; 2]; [3; 4]; [5]] None 3 [] = ([1; 2; 3], None, 4%nat)
  /\ copy_bytearray_limit [[1; 2]; [3; 4]; [5]] None 4 [] = ([1; 2; 3; 4], None, 4%nat)
  /\ copy_bytearray_limit [[1; 2]] None 0 [] = ([], None, 2%nat).
Proof. repeat split; reflexivity. Qed.

(** C19: a StringIO receives the decoding of all that was read, for any
    decoder; also when the copy failed or was cancelled.  If what was read
    does not decode, it receives nothing and UnicodeDecodeError is raised. *)
Theorem c19_text_independent_of_chunks :
  forall dec r ds e append m, chunk_reads r ds e ->
  exists got rest, sr_data r = got ++ rest /\ ((sr_end r = EndEof \/ sr_end r = EndCancel) -> rest = [])
  /\ (forall t, dec got = Some t ->
       m_data (fst (copy_stringio dec ds e (set_position_mem append m))) = (if append then m_data m else []) ++ t
       /\ snd (copy_stringio dec ds e (set_position_mem append m)) = end_exn (sr_end r))
  /\ (dec got = None -> copy_stringio dec ds e (set_position_mem append m) = (set_position_mem append m, Some UnicodeError)).
Proof. intros. now apply copy_text_exact. Qed.
Print Assumptions c19_text_independent_of_chunks.

(** The claim about interruptions is false in one case: interrupted in the
    middle of a character, all the text is lost and the CancelledError is
    replaced by UnicodeDecodeError. *)
Theorem c19_interrupted_mid_character_refuted :
  exists r ds e m, chunk_reads r ds e /\ sr_end r = EndCancel /\ sr_data r = [104; 105; 195]
  /\ copy_stringio utf8_decode ds e m = (m, Some UnicodeError).
Proof.
  exists {| sr_buf := [104; 105; 195]; sr_in := []; sr_end := EndCancel |}, [[104; 105; 195]], (Some CancelledError), {| m_data := []; m_pos := 0 |}.
  repeat split. eapply ans_data; [reflexivity|discriminate|]. eapply ans_exc. reflexivity.
Qed.
Print Assumptions c19_interrupted_mid_character_refuted.
Example c19_example : 
  copy_stringio utf8_decode [[104; 195]; [169; 10; 98]] None {| m_data := []; m_pos := 0 |}
  = ({| m_data := [104; 233; 10; 98]; m_pos := 4 |}, None).
Proof. reflexivity. Qed.

(** C20. The full claim: iterating yields all of the output. *)
Definition c20_full_claim : Prop :=
  forall r ds e t, line_reads r ds e -> sr_end r = EndEof -> utf8_decode (sr_data r) = Some t ->
  exists ts, read_lines utf8_decode ds e = (ts, None) /\ List.concat ts = t.

(** It is false for a line longer than asyncio's limit of 65536 bytes (no
    limit is configured anywhere): ValueError, and the line is dropped. *)
Theorem c20_long_line_refuted : ~ c20_full_claim.
Proof.
  intro H. set (d := repeat 97 (S LIMIT)).
  set (r := {| sr_buf := d; sr_in := []; sr_end := EndEof |}).
  assert (Hn : ~ In 10 d).
  { intro K. apply repeat_spec in K. discriminate K. }
  assert (A : line_reads r [] (Some (ValueError "Separator is not found, and chunk exceed the limit"))).
  { apply ans_exc with (r' := {| sr_buf := []; sr_in := []; sr_end := EndEof |}).
    unfold sreadline, r. cbn [sr_in sr_end sr_buf hd tl]. rewrite app_nil_r.
    pose proof (find_nl_spec d) as F. unfold until_nl. destruct (find_nl d).
    - destruct F as (l & q & E & _). exfalso. apply Hn. rewrite E. apply in_app_iff. right. left. reflexivity.
    - replace (LIMIT <? List.length d)%nat with true; [reflexivity|]. symmetry. apply Nat.ltb_lt. unfold d. rewrite repeat_length. lia. }
  assert (D : utf8_decode (sr_data r) = Some d).
  { apply decode_iff. unfold r, sr_data. cbn [sr_buf sr_in List.concat]. rewrite app_nil_r. unfold d.
    generalize (S LIMIT). induction n as [|n IH]; [reflexivity|]. cbn [repeat utf8_encode]. rewrite IH. reflexivity. }
  destruct (H r [] _ d A eq_refl D) as (ts & E & _). discriminate E.
Qed.
Print Assumptions c20_long_line_refuted.

(** When no line is longer than the limit, for every arrival of the data:
    the lines in order, nothing lost, each ending with its only newline (except
    possibly the last); a Logger receives the same lines without trailing
    white space ([sp] is str.isspace). *)
Theorem c20_lines_exact_partial :
  forall r ds e t, line_reads r ds e -> sr_end r = EndEof ->
  Forall (fun l => too_long l = false) (split_lines (sr_data r)) ->
  utf8_decode (sr_data r) = Some t ->
  exists ts, read_lines utf8_decode ds e = (ts, None) /\ line_list ts /\ List.concat ts = t
   /\ (forall sp, copy_logger sp utf8_decode ds e = (map (rstrip sp) ts, None)).
Proof. exact text_lines_full. Qed.
Print Assumptions c20_lines_exact_partial.

(** [line_list] determines the lines, so they do not depend on the arrival. *)
Theorem c20_lines_determined : forall a b, line_list a -> line_list b -> List.concat a = List.concat b -> a = b.
Proof. intros a b Ha Hb E. rewrite <- (line_list_unique a Ha), <- (line_list_unique b Hb). now rewrite E. Qed.
Print Assumptions c20_lines_determined.

(** In general the lines before the first over-long line are delivered and
    then ValueError is raised. *)
Theorem c20_lines_before_long_line :
  forall r ds e, line_reads r ds e -> sr_end r = EndEof ->
  ds = take_while (fun l => negb (too_long l)) (split_lines (sr_data r))
  /\ ((e = None /\ forallb (fun l => negb (too_long l)) (split_lines (sr_data r)) = true)
      \/ (exists m, e = Some (ValueError m) /\ forallb (fun l => negb (too_long l)) (split_lines (sr_data r)) = false)).
Proof. intros r ds e H He. apply line_reads_spec in H. destruct H as (_ & _ & H & _). exact (H He). Qed.
Print Assumptions c20_lines_before_long_line.

Theorem c20_rstrip : forall sp t, exists ws, t = rstrip sp t ++ ws /\ Forall (fun x => sp x = true) ws
  /\ (rstrip sp t = [] \/ exists i x, rstrip sp t = i ++ [x] /\ sp x = false).
Proof. exact rstrip_spec. Qed.
Print Assumptions c20_rstrip.

Example c20_example : line_reads ex_reader [[104; 195; 169; 10]; [98]] None
  /\ read_lines utf8_decode [[104; 195; 169; 10]; [98]] None = ([[104; 233; 10]; [98]], None).
Proof.
  split; [|reflexivity]. eapply ans_data; [reflexivity|discriminate|]. eapply ans_data; [reflexivity|discriminate|].
  eapply ans_eof. reflexivity.
Qed.

(** C21: input given as bytes, through a pipe: all of it, then one close, even
    if the child stopped reading. *)
Theorem c21_input_delivered :
  forall dr input, only_broken dr ->
  let (log, x) := write_stream dr false input None in
  x = None /\ written log = input /\ closes log = 1%nat /\ nothing_after_close log.
Proof.
  intros dr input H. rewrite write_stream_pipe by exact H. destruct input; cbn; rewrite ?app_nil_r; auto.
Qed.
Print Assumptions c21_input_delivered.

Theorem c21_already_closed :
  forall dr input eof, input <> [] -> write_stream dr true input eof = ([], Some BrokenPipeError).
Proof. intros dr [|x i] eof H; [congruence|reflexivity]. Qed.
Print Assumptions c21_already_closed.

(** On a pty in canonical mode: the input, then EOF once at the start of a
    line and twice otherwise. *)
Definition pty_spec (input eof : bytes) (log : list wevent) : Prop :=
  closes log = 0%nat /\
  ((input = [] \/ ends_nl input = true) -> written log = input ++ eof)
  /\ (input <> [] -> ends_nl input = false -> written log = input ++ eof ++ eof).
Theorem c93_pty_eof_partial :   (* missing: empty input *)
  forall dr input eof, only_broken dr -> eof <> [] -> input <> [] ->
  let (log, x) := write_stream dr false input (Some eof) in x = None /\ pty_spec input eof log.
Proof.
  intros dr input eof H He Hi. rewrite write_stream_pty by assumption. split; [reflexivity|].
  unfold pty_spec. cbn [written closes filter List.length]. rewrite app_nil_r. split; [reflexivity|]. split.
  - intros [K|K]; [congruence|]. now rewrite K.
  - intros _ K. now rewrite K.
Qed.
Print Assumptions c93_pty_eof_partial.
(** An empty input sends EOF twice although it is at the start of a line. *)
Theorem c93_pty_empty_input_refuted :
  exists dr eof, only_broken dr /\ eof <> [] /\
  ~ (let (log, x) := write_stream dr false [] (Some eof) in x = None /\ pty_spec [] eof log).
Proof.
  exists (fun _ => None), [4]. split; [discriminate|]. split; [discriminate|]. cbn. intros (_ & _ & K & _).
  specialize (K (or_introl eq_refl)). discriminate K.
Qed.
Print Assumptions c93_pty_empty_input_refuted.

(** Input copied from a StreamReader: a prefix of the data (all of it if the
    child keeps reading), then the close or the EOF as above - also when empty. *)
Theorem c21_reader_delivered :
  forall r ds e dr eof, chunk_reads r ds e -> sr_end r = EndEof -> only_broken dr ->
  exists got rest, sr_data r = got ++ rest /\ (all_drained dr -> rest = []) /\
  let (log, x) := write_reader dr ds e eof in
  x = None /\
  match eof with
  | None => written log = got /\ closes log = 1%nat /\ nothing_after_close log
  | Some [] => written log = got /\ closes log = 0%nat
  | Some c => pty_spec got c log
  end.
Proof.
  intros r ds e dr eof H He Hdr. destruct (chunk_reads_spec _ _ _ H) as ((rest & A & B) & E & F).
  rewrite (B (or_introl He)), app_nil_r in A. rewrite He in E. cbn in E. subst e.
  assert (F' : Forall (fun x : bytes => x <> []) ds) by (eapply Forall_impl; [|exact F]; intros x (X & _); exact X).
  destruct (write_reader_spec dr ds None eof F' Hdr ltac:(discriminate)) as (g & rs & G1 & G2 & G3).
  exists (List.concat g), (List.concat rs). rewrite A, G1, concat_app. split; [reflexivity|].
  split; [intro K; rewrite (G2 K); reflexivity|]. rewrite <- G1, G3. split; [reflexivity|].
  assert (NC : closes (map Write g) = 0%nat).
  { unfold closes. clear. induction g; cbn; auto. }
  assert (CA : forall a b, closes (a ++ b) = (closes a + closes b)%nat).
  { intros. unfold closes. rewrite filter_app, app_length. reflexivity. }
  destruct eof as [[|y c]|].
  - rewrite CA, NC, written_map. cbn. now rewrite app_nil_r.
  - unfold pty_spec. rewrite CA, NC, written_map. cbn [written]. rewrite app_nil_r. split; [reflexivity|]. split.
    + intros [K|K]; [now rewrite K|]. destruct (List.concat g) eqn:EG; [reflexivity|]. now rewrite K.
    + intros K1 K2. destruct (List.concat g) eqn:EG; [congruence|]. now rewrite K2.
  - rewrite CA, NC, written_map. cbn. rewrite app_nil_r. split; [reflexivity|]. split; [reflexivity|].
    clear. induction g as [|d g IH]; cbn; auto.
Qed.
Print Assumptions c21_reader_delivered.

Example c21_example :
  write_stream (fun _ => Some BrokenPipeError) false [104; 10] None = ([Write [104; 10]; Close], None)
  /\ write_stream (fun _ => None) false [104] (Some [4]) = ([Write [104]; Write [4; 4]], None)
  /\ write_reader (fun _ => None) [[104]; [10]] None (Some [4]) = ([Write [104]; Write [10]; Write [4]], None).
Proof. repeat split; reflexivity. Qed.
