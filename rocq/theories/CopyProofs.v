From Verif Require Import CopyModel CopySpec.
Open Scope Z_scope.

Lemma wait_data_spec ins : forall buf e,
  match wait_data buf ins e with
  | inl (b, ins') => b <> [] /\ b ++ List.concat ins' = buf ++ List.concat ins
       /\ (List.length ins' <= List.length ins)%nat
  | inr x => buf ++ List.concat ins = [] /\ x = match end_exn e with None => Ok [] | Some y => Err y end
  end.
Proof.
  induction ins as [|g ins IH]; intros [|x b] e; cbn [wait_data].
  - split; [reflexivity|]. destruct e; reflexivity.
  - repeat split; try discriminate; auto.
  - specialize (IH g e). destruct (wait_data g ins e) as [[b ins']|].
    + destruct IH as (A & B & C). cbn. repeat split; auto.
    + destruct IH as (A & B). cbn. auto.
  - repeat split; try discriminate; auto.
Qed.

Definition measure (r : sreader) : nat := (List.length (sr_data r) + List.length (sr_in r))%nat.

(** One read: data, or the end. *)
Lemma sread_spec n r : (0 < n)%nat ->
  match sread n r with
  | (Ok [], r') => sr_data r = [] /\ sr_end r = EndEof
  | (Ok d, r') => sr_data r = d ++ sr_data r' /\ sr_end r' = sr_end r /\ (List.length d <= n)%nat
                  /\ (measure r' < measure r)%nat
  | (Err x, r') => Some x = end_exn (sr_end r) /\ (sr_end r = EndCancel -> sr_data r = [])
  end.
Proof.
  intro Hn. unfold sread. destruct r as [buf ins e]. cbn [sr_in sr_end sr_buf].
  assert (G : match (match wait_data (buf ++ hd [] ins) (tl ins) e with
      | inl (b, ins') => (Ok (firstn n b), {| sr_buf := skipn n b; sr_in := ins'; sr_end := e |})
      | inr x => (x, {| sr_buf := []; sr_in := []; sr_end := e |})
      end) with
  | (Ok [], r') => sr_data {| sr_buf := buf; sr_in := ins; sr_end := e |} = [] /\ e = EndEof
  | (Ok d, r') => sr_data {| sr_buf := buf; sr_in := ins; sr_end := e |} = d ++ sr_data r' /\ sr_end r' = e /\ (List.length d <= n)%nat
                  /\ (measure r' < measure {| sr_buf := buf; sr_in := ins; sr_end := e |})%nat
  | (Err x, r') => Some x = end_exn e /\ (e = EndCancel -> sr_data {| sr_buf := buf; sr_in := ins; sr_end := e |} = [])
  end).
  { assert (D : sr_data {| sr_buf := buf; sr_in := ins; sr_end := e |} = (buf ++ hd [] ins) ++ List.concat (tl ins)).
    { unfold sr_data. cbn. destruct ins; cbn; [now rewrite !app_nil_r|now rewrite app_assoc]. }
    pose proof (wait_data_spec (tl ins) (buf ++ hd [] ins) e) as W.
    destruct (wait_data (buf ++ hd [] ins) (tl ins) e) as [[b ins']|x].
    - destruct W as (W1 & W2 & W3). destruct n as [|n]; [lia|]. destruct b as [|y b]; [congruence|].
      cbn [firstn skipn]. cbn iota. rewrite D, <- W2. unfold measure, sr_data at 1 2. cbn [sr_buf sr_in sr_end].
      repeat split.
      + cbn. f_equal. rewrite app_assoc. now rewrite firstn_skipn.
      + cbn. apply le_n_S. rewrite firstn_length. lia.
      + unfold sr_data in D. cbn [sr_buf sr_in] in D. unfold sr_data. cbn [sr_buf sr_in]. rewrite D, <- W2.
        rewrite !app_length, skipn_length. cbn [List.length].
        assert (List.length (tl ins) <= List.length ins)%nat by (destruct ins; cbn; lia). lia.
    - destruct W as (W1 & ->). rewrite D, W1. destruct e; cbn; auto. }
  destruct ins as [|g ins]; [|exact G]. destruct e; [exact G| |exact G].
  cbn. split; [reflexivity|discriminate].
Qed.

Lemma chunk_reads_spec r ds e : chunk_reads r ds e ->
  (exists got, sr_data r = List.concat ds ++ got /\ ((sr_end r = EndEof \/ sr_end r = EndCancel) -> got = []))
  /\ e = end_exn (sr_end r)
  /\ Forall (fun d => d <> [] /\ (List.length d <= CHUNK_SIZE)%nat) ds.
Proof.
  induction 1 as [r r' E|r r' x E|r r' d ds e E Hd A IH].
  - pose proof (sread_spec CHUNK_SIZE r ltac:(unfold CHUNK_SIZE; lia)) as S. rewrite E in S. destruct S as (S1 & S2).
    rewrite S1, S2. repeat split; try constructor. exists []. auto.
  - pose proof (sread_spec CHUNK_SIZE r ltac:(unfold CHUNK_SIZE; lia)) as S. rewrite E in S. destruct S as (S1 & S2).
    repeat split; try constructor; [|exact S1]. exists (sr_data r). split; [reflexivity|].
    intros [K|K]; auto. rewrite K in S1. discriminate S1.
  - pose proof (sread_spec CHUNK_SIZE r ltac:(unfold CHUNK_SIZE; lia)) as S. rewrite E in S.
    destruct d as [|x d]; [congruence|]. destruct S as (S1 & S2 & S3 & S4).
    destruct IH as ((got & I1 & I2) & I3 & I4). rewrite <- S2. repeat split.
    + exists got. split; [rewrite S1, I1; cbn [List.concat]; now rewrite app_assoc|exact I2].
    + exact I3.
    + constructor; [split; [discriminate|exact S3]|exact I4].
Qed.

Lemma chunk_reads_total : forall r, exists ds e, chunk_reads r ds e.
Proof.
  intro r. remember (measure r) as m. revert r Heqm. induction m as [m IH] using lt_wf_ind. intros r ->.
  pose proof (sread_spec CHUNK_SIZE r ltac:(unfold CHUNK_SIZE; lia)) as S.
  destruct (sread CHUNK_SIZE r) as [[[|x d]|x] r'] eqn:E.
  - exists [], None. eapply ans_eof; eauto.
  - destruct S as (S1 & S2 & S3 & S4). destruct (IH _ S4 r' eq_refl) as (ds & e & A).
    exists ((x :: d) :: ds), e. eapply ans_data; eauto. discriminate.
  - exists [], (Some x). eapply ans_exc; eauto.
Qed.

(** * Byte sinks *)
Lemma copy_bytearray_eq ds e : forall b, copy_bytearray ds e b = (b ++ List.concat ds, e).
Proof.
  induction ds as [|d ds IH]; intro b; cbn; [now rewrite app_nil_r|]. rewrite IH. now rewrite app_assoc.
Qed.
Lemma mem_write_end m d : m_pos m = List.length (m_data m) ->
  mem_write m d = {| m_data := m_data m ++ d; m_pos := List.length (m_data m ++ d) |}.
Proof.
  intro H. unfold mem_write. rewrite H. rewrite firstn_all, Nat.sub_diag. cbn [repeat app].
  rewrite skipn_all2 by lia. rewrite app_nil_r, app_length. reflexivity.
Qed.
Lemma copy_bytesio_eq ds e : forall m, m_pos m = List.length (m_data m) ->
  copy_bytesio ds e m = ({| m_data := m_data m ++ List.concat ds; m_pos := List.length (m_data m ++ List.concat ds) |}, e).
Proof.
  induction ds as [|d ds IH]; intros m H; cbn [copy_bytesio List.concat].
  - rewrite app_nil_r, <- H. destruct m; reflexivity.
  - rewrite mem_write_end by exact H. rewrite IH by reflexivity. cbn. now rewrite app_assoc.
Qed.
Lemma set_position_end ap m : m_pos (set_position_mem ap m) = List.length (m_data (set_position_mem ap m)).
Proof. destruct ap; reflexivity. Qed.

Definition old_content (append : bool) (old : list Z) : list Z := if append then old else [].

Lemma copy_bytes_exact r ds e append b m : chunk_reads r ds e ->
  exists got rest, sr_data r = got ++ rest /\ ((sr_end r = EndEof \/ sr_end r = EndCancel) -> rest = [])
  /\ copy_bytearray ds e (set_position_bytearray append b) = ((if append then b else []) ++ got, end_exn (sr_end r))
  /\ m_data (fst (copy_bytesio ds e (set_position_mem append m))) = (if append then m_data m else []) ++ got
  /\ snd (copy_bytesio ds e (set_position_mem append m)) = end_exn (sr_end r).
Proof.
  intro H. destruct (chunk_reads_spec _ _ _ H) as ((got & A & B) & -> & _).
  exists (List.concat ds), got. rewrite copy_bytearray_eq, copy_bytesio_eq by apply set_position_end.
  destruct append; repeat split; auto.
Qed.

(** * error_limit *)
Lemma discard_eq ds e : discard ds e = (e, S (List.length ds)).
Proof. induction ds as [|d ds IH]; cbn; [reflexivity|]. rewrite IH. reflexivity. Qed.
Lemma copy_limit_loop_eq ds e limit : forall b, (List.length b <= limit)%nat ->
  copy_limit_loop ds e limit b = (firstn limit (b ++ List.concat ds), e, S (List.length ds)).
Proof.
  induction ds as [|d ds IH]; intros b Hb; cbn [copy_limit_loop List.concat].
  - rewrite app_nil_r, firstn_all2 by exact Hb. reflexivity.
  - destruct (Nat.ltb_spec limit (List.length (b ++ d))).
    + rewrite discard_eq. f_equal. f_equal.
      rewrite app_assoc, (firstn_app limit (b ++ d)). replace (limit - List.length (b ++ d))%nat with 0%nat by lia.
      cbn. now rewrite app_nil_r.
    + rewrite IH by lia. rewrite app_assoc. reflexivity.
Qed.
Lemma copy_limit_exact r ds e limit : chunk_reads r ds e -> 0 <= limit ->
  exists got rest, sr_data r = got ++ rest /\ ((sr_end r = EndEof \/ sr_end r = EndCancel) -> rest = [])
  /\ copy_bytearray_limit ds e limit [] = (firstn (Z.to_nat limit) got, end_exn (sr_end r), S (List.length ds)).
Proof.
  intros H Hl. destruct (chunk_reads_spec _ _ _ H) as ((got & A & B) & -> & _).
  exists (List.concat ds), got. split; [exact A|]. split; [exact B|].
  unfold copy_bytearray_limit. destruct (Z.ltb_spec limit 0); [lia|].
  rewrite copy_limit_loop_eq by (cbn; lia). reflexivity.
Qed.

(** * StringIO *)
Lemma collect_eq ds : forall b, collect ds b = b ++ List.concat ds.
Proof. induction ds as [|d ds IH]; intro b; cbn; [now rewrite app_nil_r|]. rewrite IH. now rewrite app_assoc. Qed.
Lemma copy_text_exact dec r ds e append m : chunk_reads r ds e ->
  exists got rest, sr_data r = got ++ rest /\ ((sr_end r = EndEof \/ sr_end r = EndCancel) -> rest = [])
  /\ (forall t, dec got = Some t ->
       m_data (fst (copy_stringio dec ds e (set_position_mem append m))) = (if append then m_data m else []) ++ t
       /\ snd (copy_stringio dec ds e (set_position_mem append m)) = end_exn (sr_end r))
  /\ (dec got = None -> copy_stringio dec ds e (set_position_mem append m) = (set_position_mem append m, Some UnicodeError)).
Proof.
  intro H. destruct (chunk_reads_spec _ _ _ H) as ((got & A & B) & -> & _).
  exists (List.concat ds), got. split; [exact A|]. split; [exact B|].
  unfold copy_stringio. rewrite collect_eq. cbn [app]. split.
  - intros t ->. rewrite mem_write_end by apply set_position_end. cbn. destruct append; auto.
  - intros ->. reflexivity.
Qed.

(** * Lines *)
Lemma find_nl_spec b : match find_nl b with
  | Some i => exists l r, b = l ++ 10 :: r /\ List.length l = i /\ ~ In 10 l
  | None => ~ In 10 b
  end.
Proof.
  induction b as [|x b IH]; cbn; [tauto|]. destruct (Z.eqb_spec x 10) as [->|Hx].
  - exists [], b. repeat split. tauto.
  - destruct (find_nl b) as [i|].
    + destruct IH as (l & r & -> & <- & Hl). exists (x :: l), r. repeat split. cbn. intuition.
    + intuition.
Qed.

Lemma split_lines_nl l r : ~ In 10 l -> split_lines (l ++ 10 :: r) = (l ++ [10]) :: split_lines r.
Proof.
  induction l as [|x l IH]; intro H; cbn [app split_lines].
  - rewrite Z.eqb_refl. reflexivity.
  - destruct (Z.eqb_spec x 10); [subst; cbn in H; tauto|]. rewrite IH by (cbn in H; tauto). reflexivity.
Qed.
Lemma split_lines_nonl l : ~ In 10 l -> split_lines l = match l with [] => [] | _ => [l] end.
Proof.
  induction l as [|x l IH]; intro H; cbn [split_lines]; [reflexivity|].
  destruct (Z.eqb_spec x 10); [subst; cbn in H; tauto|]. rewrite IH by (cbn in H; tauto). destruct l; reflexivity.
Qed.
Lemma split_lines_concat d : List.concat (split_lines d) = d.
Proof.
  induction d as [|x d IH]; cbn; [reflexivity|]. destruct (x =? 10) eqn:E.
  - cbn. now rewrite IH.
  - destruct (split_lines d); cbn in *; now rewrite <- IH.
Qed.
Lemma split_lines_list d : line_list (split_lines d).
Proof.
  induction d as [|x d IH]; cbn; [constructor|]. destruct (Z.eqb_spec x 10) as [->|Hx].
  - apply (ll_cons []); [tauto|exact IH].
  - inversion IH as [Z|l Hl Hn Z|l ls Hn IH' Z].
    + apply ll_last; [discriminate|]. cbn. intuition.
    + apply ll_last; [discriminate|]. cbn. intuition.
    + change (x :: l ++ [10]) with ((x :: l) ++ [10]). apply ll_cons; [cbn; intuition|exact IH'].
Qed.
Lemma line_list_unique ls : line_list ls -> split_lines (List.concat ls) = ls.
Proof.
  induction 1 as [|l Hl Hn|l ls Hn H IH]; cbn; [reflexivity| |].
  - rewrite app_nil_r, split_lines_nonl by exact Hn. destruct l; [congruence|reflexivity].
  - rewrite <- app_assoc. cbn [app]. rewrite split_lines_nl by exact Hn. now rewrite IH.
Qed.

Lemma ends_nl_app l : ends_nl (l ++ [10]) = true.
Proof. unfold ends_nl. now rewrite rev_app_distr. Qed.
Lemma ends_nl_nonl l : ~ In 10 l -> ends_nl l = false.
Proof.
  intro H. unfold ends_nl. destruct (rev l) as [|x t] eqn:E; [reflexivity|].
  destruct (Z.eqb_spec x 10); [|reflexivity]. exfalso. apply H. apply in_rev. rewrite E. left. exact e.
Qed.
Lemma line_length_nl l : line_length (l ++ [10]) = List.length l.
Proof. unfold line_length. rewrite ends_nl_app, app_length. cbn. lia. Qed.
Lemma line_length_nonl l : ~ In 10 l -> line_length l = List.length l.
Proof. intro H. unfold line_length. now rewrite ends_nl_nonl. Qed.

Definition first_line (d : bytes) : bytes := hd [] (split_lines d).

(** One readline. *)
Lemma until_nl_spec limit ins : forall buf e,
  let d := buf ++ List.concat ins in
  match until_nl limit buf ins e with
  | (Ok [], r') => d = [] /\ e = EndEof
  | (Ok l, r') => split_lines d = l :: split_lines (sr_data r') /\ (line_length l <= limit)%nat /\ sr_end r' = e
       /\ (measure r' < List.length d + List.length ins + 1)%nat
  | (Err x, r') => (exists m l, x = ValueError m /\ hd_error (split_lines d) = Some l /\ (limit < line_length l)%nat)
                   \/ (Some x = end_exn e /\ ~ In 10 d /\ (List.length d <= limit)%nat)
  end.
Proof.
  induction ins as [|g ins IH]; intros buf e d; cbn [until_nl]; pose proof (find_nl_spec buf) as F;
    destruct (find_nl buf) as [i|] eqn:EF.
  1,3: destruct F as (l & r & -> & <- & Hl); subst d; rewrite <- app_assoc; cbn [app];
    rewrite (split_lines_nl l) by exact Hl;
    replace (S (List.length l)) with (List.length (l ++ [10])) by (rewrite app_length; cbn; lia);
    replace (l ++ 10 :: r) with ((l ++ [10]) ++ r) by (now rewrite <- app_assoc);
    destruct (Nat.ltb_spec limit (List.length l)) as [HL|HL];
    [left; do 2 eexists; split; [reflexivity|]; split; [reflexivity|]; now rewrite line_length_nl|];
    rewrite skipn_app, firstn_app, Nat.sub_diag, skipn_all2, firstn_all by lia; cbn [firstn skipn app]; rewrite app_nil_r;
    destruct (l ++ [10]) as [|y ys] eqn:EY; [destruct l; discriminate EY|]; rewrite <- EY;
    split; [reflexivity|]; split; [now rewrite line_length_nl|]; split; [reflexivity|];
    unfold measure, sr_data; cbn [sr_buf sr_in]; rewrite !app_length; cbn [List.length]; rewrite ?app_length; unfold bytes in *; lia.
  - subst d. cbn [List.concat]. rewrite app_nil_r. destruct (Nat.ltb_spec limit (List.length buf)) as [HL|HL].
    + left. do 2 eexists. split; [reflexivity|]. rewrite split_lines_nonl by exact F.
      destruct buf as [|y ys]; [cbn in HL; lia|]. split; [reflexivity|]. now rewrite line_length_nonl.
    + destruct e.
      * destruct buf as [|y ys]; [auto|]. rewrite split_lines_nonl by exact F.
        split; [reflexivity|]. rewrite line_length_nonl by exact F. split; [exact HL|]. split; [reflexivity|].
        unfold measure, sr_data. cbn. lia.
      * right. auto.
      * right. auto.
  - subst d. destruct (Nat.ltb_spec limit (List.length buf)) as [HL|HL].
    + left. exists "Separator is not found, and chunk exceed the limit"%string. cbn [List.concat].
      pose proof (find_nl_spec (g ++ List.concat ins)) as G.
      destruct (find_nl (g ++ List.concat ins)) as [j|].
      * destruct G as (l & r & -> & <- & Hl). exists ((buf ++ l) ++ [10]). split; [reflexivity|].
        rewrite app_assoc. rewrite split_lines_nl by (rewrite in_app_iff; tauto). split; [reflexivity|].
        rewrite line_length_nl, app_length. lia.
      * exists (buf ++ g ++ List.concat ins). split; [reflexivity|].
        rewrite split_lines_nonl by (rewrite in_app_iff; tauto).
        destruct buf as [|y ys]; [cbn in HL; lia|]. split; [reflexivity|].
        rewrite line_length_nonl by (rewrite in_app_iff; tauto). rewrite app_length. lia.
    + specialize (IH (buf ++ g) e). cbn zeta in IH. cbn [List.concat]. rewrite (app_assoc buf g).
      destruct (until_nl limit (buf ++ g) ins e) as [[[|y ys]|x] r']; auto.
      destruct IH as (A & B & C & D). repeat split; auto. cbn. lia.
Qed.

Lemma sreadline_spec limit r :
  let d := sr_data r in
  match sreadline limit r with
  | (Ok [], r') => d = [] /\ sr_end r = EndEof
  | (Ok l, r') => split_lines d = l :: split_lines (sr_data r') /\ (line_length l <= limit)%nat /\ sr_end r' = sr_end r
       /\ (measure r' < measure r + 1)%nat
  | (Err x, r') => (exists m l, x = ValueError m /\ hd_error (split_lines d) = Some l /\ (limit < line_length l)%nat)
                   \/ (Some x = end_exn (sr_end r) /\ (sr_end r = EndCancel -> ~ In 10 d /\ (List.length d <= limit)%nat))
  end.
Proof.
  destruct r as [buf ins e]. unfold sreadline. cbn [sr_buf sr_in sr_end]. cbn zeta.
  assert (D : sr_data {| sr_buf := buf; sr_in := ins; sr_end := e |} = (buf ++ hd [] ins) ++ List.concat (tl ins)).
  { unfold sr_data. cbn. destruct ins; cbn; [now rewrite !app_nil_r|now rewrite app_assoc]. }
  assert (G : match until_nl limit (buf ++ hd [] ins) (tl ins) e with
  | (Ok [], r') => sr_data {| sr_buf := buf; sr_in := ins; sr_end := e |} = [] /\ e = EndEof
  | (Ok l, r') => split_lines (sr_data {| sr_buf := buf; sr_in := ins; sr_end := e |}) = l :: split_lines (sr_data r') /\ (line_length l <= limit)%nat /\ sr_end r' = e
       /\ (measure r' < measure {| sr_buf := buf; sr_in := ins; sr_end := e |} + 1)%nat
  | (Err x, r') => (exists m l, x = ValueError m /\ hd_error (split_lines (sr_data {| sr_buf := buf; sr_in := ins; sr_end := e |})) = Some l /\ (limit < line_length l)%nat)
                   \/ (Some x = end_exn e /\ (e = EndCancel -> ~ In 10 (sr_data {| sr_buf := buf; sr_in := ins; sr_end := e |}) /\ (List.length (sr_data {| sr_buf := buf; sr_in := ins; sr_end := e |}) <= limit)%nat))
  end).
  { pose proof (until_nl_spec limit (tl ins) (buf ++ hd [] ins) e) as U. cbn zeta in U. rewrite <- D in U.
    destruct (until_nl limit (buf ++ hd [] ins) (tl ins) e) as [[[|y ys]|x] r']; auto.
    - destruct U as (A & B & C & E). repeat split; auto. unfold measure at 2. cbn [sr_in].
      assert (List.length (tl ins) <= List.length ins)%nat by (destruct ins; cbn; lia). unfold bytes in *; lia.
    - destruct U as [U|(U1 & U2 & U3)]; [left; exact U|right]. auto. }
  destruct ins as [|g ins]; [|exact G]. destruct e; [exact G| |exact G].
  right. split; [reflexivity|discriminate].
Qed.

Definition short (l : bytes) : bool := negb (too_long l).

Lemma line_list_hd d l ls : split_lines d = l :: ls -> l <> [].
Proof. intro E. pose proof (split_lines_list d) as H. rewrite E in H. inversion H; subst; auto. destruct l0; discriminate. Qed.

(** All readlines: the lines before the first over-long one, in order. *)
Lemma line_reads_spec r ds e : line_reads r ds e ->
  prefix ds (take_while short (split_lines (sr_data r)))
  /\ (e = None -> sr_end r = EndEof)
  /\ (sr_end r = EndEof -> ds = take_while short (split_lines (sr_data r))
      /\ ((e = None /\ forallb short (split_lines (sr_data r)) = true)
          \/ (exists m, e = Some (ValueError m) /\ forallb short (split_lines (sr_data r)) = false)))
  /\ (sr_end r = EndCancel -> e = Some CancelledError -> exists last, ~ In 10 last
      /\ sr_data r = List.concat ds ++ last).
Proof.
  induction 1 as [r r' E|r r' x E|r r' d ds e E Hd A IH];
    pose proof (sreadline_spec LIMIT r) as S; cbn zeta in S; rewrite E in S.
  - destruct S as (S1 & S2). rewrite S1. cbn. repeat split; auto.
    + exists []. reflexivity.
    + congruence.
  - split; [eexists; reflexivity|]. split; [discriminate|]. split.
    + intro Ee. destruct S as [(m & l & -> & S2 & S3)|(S1 & _)]; [|rewrite Ee in S1; discriminate S1].
      destruct (split_lines (sr_data r)) as [|l' ls]; [discriminate S2|]. inversion S2; subst l'.
      assert (SF : short l = false).
      { unfold short, too_long. destruct (Nat.ltb_spec LIMIT (line_length l)); [reflexivity|lia]. }
      cbn. rewrite SF. cbn. split; [reflexivity|]. right. eauto.
    + intros Ee Ex. inversion Ex; subst x. destruct S as [(m & l & S1 & _)|(_ & S2)]; [discriminate S1|].
      destruct (S2 Ee) as (S3 & _). exists (sr_data r). auto.
  - destruct d as [|y ys] eqn:Ed; [congruence|]. rewrite <- Ed in *. destruct S as (S1 & S2 & S3 & S4).
    rewrite S1, <- S3. cbn [take_while forallb].
    assert (SF : short d = true).
    { unfold short, too_long. destruct (Nat.ltb_spec LIMIT (line_length d)); [lia|reflexivity]. }
    rewrite SF. cbn [andb]. destruct IH as ((c & I1) & I2 & I3 & I4). repeat split.
    + exists c. rewrite I1. reflexivity.
    + exact I2.
    + destruct (I3 H) as (-> & _). reflexivity.
    + destruct (I3 H) as (_ & K). exact K.
    + intros K1 K2. destruct (I4 K1 K2) as (last & L1 & L2). exists last. split; [exact L1|].
      rewrite <- (split_lines_concat (sr_data r)), S1. cbn [List.concat]. rewrite split_lines_concat, L2. now rewrite app_assoc.
Qed.

Lemma line_reads_total : forall r, exists ds e, line_reads r ds e.
Proof.
  (* measure: bytes remaining, since every line takes some *)
  intro r. remember (List.length (sr_data r)) as m. revert r Heqm. induction m as [m IH] using lt_wf_ind. intros r ->.
  pose proof (sreadline_spec LIMIT r) as S. cbn zeta in S.
  destruct (sreadline LIMIT r) as [[[|x d]|x] r'] eqn:E.
  - exists [], None. eapply ans_eof; eauto.
  - destruct S as (S1 & S2 & S3 & S4).
    assert (L : (List.length (sr_data r') < List.length (sr_data r))%nat).
    { rewrite <- (split_lines_concat (sr_data r)), S1. cbn [List.concat]. rewrite app_length, split_lines_concat. cbn. lia. }
    destruct (IH _ L r' eq_refl) as (ds & e & A).
    exists ((x :: d) :: ds), e. eapply ans_data; eauto. discriminate.
  - exists [], (Some x). eapply ans_exc; eauto.
Qed.

(** Decoding line by line. *)
Fixpoint map_opt {A B} (f : A -> option B) (l : list A) : option (list B) :=
  match l with
  | [] => Some []
  | x :: r => match f x, map_opt f r with Some y, Some ys => Some (y :: ys) | _, _ => None end
  end.
Lemma read_lines_all dec ds e ts : map_opt dec ds = Some ts -> read_lines dec ds e = (ts, e).
Proof.
  revert ts. induction ds as [|d ds IH]; intros ts H; cbn in *; [inversion H; reflexivity|].
  destruct (dec d); [|discriminate H]. destruct (map_opt dec ds); [|discriminate H]. inversion H; subst.
  rewrite (IH l eq_refl). reflexivity.
Qed.
Lemma copy_logger_all sp dec ds e ts : map_opt dec ds = Some ts -> copy_logger sp dec ds e = (map (rstrip sp) ts, e).
Proof.
  revert ts. induction ds as [|d ds IH]; intros ts H; cbn in *; [inversion H; reflexivity|].
  destruct (dec d); [|discriminate H]. destruct (map_opt dec ds); [|discriminate H]. inversion H; subst.
  rewrite (IH l eq_refl). reflexivity.
Qed.
Lemma rstrip_spec sp t : exists ws, t = rstrip sp t ++ ws /\ Forall (fun x => sp x = true) ws
  /\ (rstrip sp t = [] \/ exists i x, rstrip sp t = i ++ [x] /\ sp x = false).
Proof.
  induction t as [|x t (ws & A & B & C)]; cbn.
  - exists []. repeat split; auto.
  - destruct (rstrip sp t) as [|y l] eqn:E.
    + destruct (sp x) eqn:Sx.
      * exists (x :: ws). cbn in A. subst ws. repeat split; auto.
      * exists ws. cbn in A. subst ws. repeat split; auto. right. exists [], x. auto.
    + exists ws. split; [cbn; now rewrite A at 1|]. split; [exact B|]. right.
      destruct C as [C|(i & z & C1 & C2)]; [discriminate C|]. exists (x :: i), z. rewrite C1. auto.
Qed.

(** * Writers *)
Lemma copy_streamwriter_spec dr cl ds e : forall k,
  (forall j, dr j = None) ->
  copy_streamwriter dr cl k ds e = (map Write ds ++ match e with None => [Close; WaitClosed] | _ => [] end,
                                    match e with None => cl | _ => e end).
Proof.
  induction ds as [|d ds IH]; intros k H; cbn.
  - destruct e; reflexivity.
  - rewrite H, IH by exact H. reflexivity.
Qed.
Lemma written_map ds : forall tl, written (map Write ds ++ tl) = List.concat ds ++ written tl.
Proof. induction ds as [|d ds IH]; intro tl; cbn; [reflexivity|]. rewrite IH. now rewrite app_assoc. Qed.

Lemma safe_drain_ok dr k : only_broken dr -> safe_drain dr k = None.
Proof. intro H. unfold safe_drain. destruct (dr k) eqn:E; [|reflexivity]. now rewrite (H _ _ E). Qed.

Lemma write_stream_pipe dr input : only_broken dr ->
  write_stream dr false input None = (match input with [] => [] | _ => [Write input] end ++ [Close], None).
Proof. intro H. unfold write_stream. destruct input; [reflexivity|]. rewrite safe_drain_ok by exact H. reflexivity. Qed.

Lemma write_stream_pty dr input c : only_broken dr -> c <> [] -> input <> [] ->
  write_stream dr false input (Some c) = ([Write input; Write (if ends_nl input then c else c ++ c)], None).
Proof.
  intros H Hc Hi. unfold write_stream. destruct input; [congruence|]. rewrite safe_drain_ok by exact H.
  destruct c; [congruence|]. rewrite safe_drain_ok by exact H. reflexivity.
Qed.

Lemma ends_nl_concat ds d : ds <> [] -> Forall (fun x => x <> []) (ds ++ [d]) -> ends_nl (List.concat (ds ++ [d])) = ends_nl d.
Proof.
  intros _ H. rewrite concat_app. cbn. rewrite app_nil_r. unfold ends_nl. rewrite rev_app_distr.
  apply Forall_app in H. destruct H as (_ & H). inversion H; subst.
  destruct (rev d) eqn:E; [|reflexivity]. apply (f_equal (@rev Z)) in E. rewrite rev_involutive in E. cbn in E. congruence.
Qed.

Lemma write_reader_loop_spec dr ds e : Forall (fun x => x <> []) ds -> only_broken dr ->
  (forall x, e = Some x -> broken x = true) -> forall k nl pre,
  nl = (match pre with [] => true | _ => ends_nl pre end) ->
  exists got rest k', ds = got ++ rest /\
   write_reader_loop dr k nl ds e = (map Write got, match pre ++ List.concat got with [] => true | y => ends_nl y end, k', None)
   /\ (all_drained dr -> rest = []).
Proof.
  intros HF Hdr He. induction HF as [|d ds Hd HF IH]; intros k nl pre Hnl; cbn [write_reader_loop].
  - exists [], [], k. split; [reflexivity|]. split; [|auto]. cbn. rewrite app_nil_r.
    assert (X : nl = match pre with [] => true | z :: l => ends_nl (z :: l) end) by (subst nl; destruct pre; reflexivity).
    rewrite <- X.
    destruct e as [x|]; [|reflexivity]. now rewrite (He x eq_refl).
  - assert (Hn : ends_nl d = match pre ++ d with [] => true | _ => ends_nl (pre ++ d) end).
    { destruct (pre ++ d) eqn:E; [destruct pre; [cbn in E; congruence|discriminate E]|]. rewrite <- E.
      unfold ends_nl. rewrite rev_app_distr. destruct (rev d) eqn:Er; [|reflexivity].
      apply (f_equal (@rev Z)) in Er. rewrite rev_involutive in Er. cbn in Er. congruence. }
    destruct (dr k) eqn:Ek.
    + exists [d], ds, (S k). split; [reflexivity|]. rewrite (Hdr _ _ Ek). cbn [map List.concat].
      rewrite app_nil_r. rewrite Hn. split; [destruct (pre ++ d); reflexivity|]. intro K. rewrite K in Ek. discriminate Ek.
    + destruct (IH (S k) (ends_nl d) (pre ++ d) Hn) as (got & rest & k' & -> & B & C).
      exists (d :: got), rest, k'. split; [reflexivity|]. split; [|exact C]. rewrite B. cbn [map List.concat].
      rewrite <- app_assoc. reflexivity.
Qed.

Lemma write_reader_spec dr ds e eof : Forall (fun x => x <> []) ds -> only_broken dr ->
  (forall x, e = Some x -> broken x = true) ->
  exists got rest, ds = got ++ rest /\ (all_drained dr -> rest = [])
  /\ write_reader dr ds e eof = (map Write got ++ match eof with
       | None => [Close]
       | Some [] => []
       | Some c => [Write (match List.concat got with [] => c | y => if ends_nl y then c else c ++ c end)]
       end, None).
Proof.
  intros HF Hdr He. unfold write_reader.
  destruct (write_reader_loop_spec dr ds e HF Hdr He 0%nat true [] eq_refl) as (got & rest & k' & A & B & C).
  exists got, rest. split; [exact A|]. split; [exact C|]. rewrite B. cbn [app].
  destruct eof as [[|x c]|]; [now rewrite app_nil_r| |reflexivity].
  rewrite safe_drain_ok by exact Hdr. destruct (List.concat got); reflexivity.
Qed.
