(** Theorems for C123-C126 (encodings and error handlers). *)
From Verif Require Import Base Utf8Model Utf8Spec Utf8Proofs EncodingModel EncodingSpec EncodingProofs EncodingProofs2
  CopyModel CopySpec CopyProofs.
Open Scope Z_scope.

(** C123: the chunks do not matter, for every encoding, handler and newline
    mode: Prompt sees what decode_bytes makes of the whole output. *)
Theorem c123_chunks_do_not_matter :
  forall enc k e chunks, parse_encoding enc = Some (k, e) ->
  ifeed_all k e false chunks = decode_bytes (List.concat chunks) enc
  /\ match decode_bytes (List.concat chunks) enc with
     | None => ifeed_all k e true chunks = None
     | Some t => exists t', ifeed_all k e true chunks = Some t' /\ normalized t t'
     end.
Proof.
  intros enc k e chunks H. unfold decode_bytes. rewrite H. split; [apply ifeed_all_plain|].
  rewrite ifeed_all_normalize. destruct (decode k e (List.concat chunks)) as [t|]; [|reflexivity].
  exists (nl_replace t). split; [reflexivity|apply nl_replace_norm].
Qed.
Print Assumptions c123_chunks_do_not_matter.

(** What is sent in pieces is what is sent at once, and arrives as it is. *)
Theorem c123_text_arrives :
  forall enc k e texts ds chunks, parse_encoding enc = Some (k, e) ->
  Forall2 (fun t d => encode k Strict t = Some d) texts ds -> List.concat ds = List.concat chunks ->
  encode_bytes (List.concat texts) enc = Some (List.concat ds)
  /\ Forall2 (fun t d => encode_bytes t enc = Some d) texts ds
  /\ ifeed_all k e false chunks = Some (List.concat texts).
Proof.
  intros enc k e texts ds chunks H F E. rewrite ifeed_all_plain, <- E. clear chunks E. unfold encode_bytes. rewrite H. clear H enc.
  assert (W : forall t d, encode k Strict t = Some d -> encode k e t = Some d).
  { induction t as [|c t IH]; intros d Hd; cbn [encode] in *; [exact Hd|]. unfold encode_one in *.
    destruct (raw k c); [|discriminate Hd]. destruct (encode k Strict t) as [d'|]; [|discriminate Hd]. rewrite (IH d' eq_refl). exact Hd. }
  assert (A : encode k Strict (List.concat texts) = Some (List.concat ds)).
  { induction F as [|t d texts ds Ht F IH]; [reflexivity|]. cbn [List.concat]. rewrite encode_app, Ht, IH. reflexivity. }
  split; [apply W; exact A|]. split; [|eapply decode_encode; exact A].
  clear A. induction F; constructor; auto.
Qed.
Print Assumptions c123_text_arrives.

Theorem c123_default_errors :
  parse_encoding (of_string "utf-8") = Some (Utf8, Strict)
  /\ forall c h k e, codec_named c = Some k -> errors_named h = Some e -> parse_encoding (c ++ 32 :: h) = Some (k, e).
Proof.
  split; [reflexivity|]. intros c h k e H1 H2.
  assert (Hc : In c [of_string "utf-8"; of_string "latin-1"; of_string "ascii"; of_string "utf-16-le"]).
  { unfold codec_named in H1. cbn [In].
    destruct (text_eqb c (of_string "utf-8")) eqn:E1; [apply text_eqb_eq in E1; auto|].
    destruct (text_eqb c (of_string "latin-1")) eqn:E2; [apply text_eqb_eq in E2; auto|].
    destruct (text_eqb c (of_string "ascii")) eqn:E3; [apply text_eqb_eq in E3; auto|].
    destruct (text_eqb c (of_string "utf-16-le")) eqn:E4; [apply text_eqb_eq in E4; auto|discriminate H1]. }
  assert (Hh : In h [of_string "strict"; of_string "replace"; of_string "ignore"; of_string "surrogateescape"]).
  { unfold errors_named in H2. cbn [In].
    destruct (text_eqb h (of_string "strict")) eqn:E1; [apply text_eqb_eq in E1; auto|].
    destruct (text_eqb h (of_string "replace")) eqn:E2; [apply text_eqb_eq in E2; auto|].
    destruct (text_eqb h (of_string "ignore")) eqn:E3; [apply text_eqb_eq in E3; auto|].
    destruct (text_eqb h (of_string "surrogateescape")) eqn:E4; [apply text_eqb_eq in E4; auto 6|discriminate H2]. }
  cbn [In] in Hc, Hh. destruct Hc as [<-|[<-|[<-|[<-|[]]]]]; destruct Hh as [<-|[<-|[<-|[<-|[]]]]];
    vm_compute in H1, H2; injection H1 as <-; injection H2 as <-; vm_compute; reflexivity.
Qed.
Print Assumptions c123_default_errors.

Example c123_example :
  (* "é€" and a stray byte, split in the middle of both characters *)
  parse_encoding (of_string " utf-8   replace ") = None
  /\ parse_encoding (of_string "utf-8 replace") = Some (Utf8, Replace)
  /\ parse_encoding (of_string "latin-1") = Some (Latin1, Strict)
  /\ ifeed_all Utf8 Replace false [[195]; [169; 226]; [130]; []; [172; 255]; [226; 130]] = Some [233; 8364; 65533; 65533]
  /\ ifeed_all Utf8 Strict false [[195]; [169; 226]; [130]; [172; 255]] = None
  /\ ifeed_all Utf16le Strict true [[97]; [0; 13]; [0]; [10; 0; 61]; [216; 0]; [222]] = Some [97; 10; 128512].
Proof. vm_compute. repeat split; reflexivity. Qed.

(** C124: replace, ignore and surrogateescape: never an error, every valid
    character is kept as it is and in its place, and every ill-formed sequence
    (the longest beginning of a character) gives exactly its replacement. *)
Theorem c124_handlers :
  forall k e d, k <> Utf16le -> e <> Strict -> is_bytes d ->
  exists t, decode k e d = Some t /\ forall t', decoded k (replacement e) d t' <-> t' = t.
Proof.
  intros k e d Hk He B. destruct (decode_decoded k e d Hk He B) as (t & E & D). exists t. split; [exact E|].
  intros t'. split; [|intros ->; exact D]. intros D'. apply (decoded_decode k e d t' Hk He B) in D'. congruence.
Qed.
Print Assumptions c124_handlers.

(** Nothing is lost with surrogateescape. *)
Theorem c124_surrogateescape_roundtrip :
  forall k d, k <> Utf16le -> is_bytes d ->
  exists t, decode k SurrogateEscape d = Some t /\ encode k SurrogateEscape t = Some d.
Proof. exact escape_roundtrip. Qed.
Print Assumptions c124_surrogateescape_roundtrip.

(** On valid data the handler plays no part, and strict decoding accepts
    exactly the valid data. *)
Theorem c124_valid_data :
  forall k d t, is_bytes d ->
  (decode k Strict d = Some t <-> encode k Strict t = Some d)
  /\ (encode k Strict t = Some d -> forall e, decode k e d = Some t).
Proof.
  intros k d t B. split; [split|].
  - intros H. apply encode_decode; assumption.
  - intros H. eapply decode_encode; exact H.
  - intros H e. eapply decode_encode; exact H.
Qed.
Print Assumptions c124_valid_data.

(** Encoding: `replace` and `ignore` never fail; what has no bytes in the
    codec becomes a question mark, or nothing, and all other characters are
    encoded as they are. *)
Definition substituted (k : codec) (e : errors) (t : text) : text :=
  flat_map (fun c => match raw k c with Some _ => [c] | None => match e with Replace => [63] | _ => [] end end) t.
Theorem c124_encoding_handlers :
  forall k e t, e = Replace \/ e = Ignore ->
  exists d, encode k e t = Some d /\ encode k Strict (substituted k e t) = Some d.
Proof.
  intros k e t He. induction t as [|c t (d & E1 & E2)]; [exists []; split; reflexivity|].
  assert (Q : raw k 63 = Some (match k with Utf16le => [63; 0] | _ => [63] end)) by (destruct k; reflexivity).
  cbn [encode substituted flat_map]. unfold encode_one at 1. rewrite E1. fold (substituted k e t). destruct (raw k c) as [b|] eqn:R.
  - cbn [app encode]. unfold encode_one. rewrite R, E2. eauto.
  - destruct He as [-> | ->]; [|cbn [app]; rewrite E2; eauto].
    rewrite Q. cbn [app encode]. unfold encode_one. rewrite Q, E2. eauto.
Qed.
Print Assumptions c124_encoding_handlers.
Example c124_encoding_example : encode Ascii Replace [97; 233; 98] = Some [97; 63; 98] /\ encode Ascii Ignore [97; 233; 98] = Some [97; 98]
  /\ encode Utf16le Replace [55296; 97] = Some [63; 0; 97; 0] /\ encode Ascii Strict [97; 233] = None.
Proof. repeat split; reflexivity. Qed.

(** The example of the Unicode standard (table 3-8), and the round trip. *)
Example c124_example :
  decode Utf8 Replace [97; 241; 128; 128; 225; 128; 194; 98; 128; 99; 128; 191; 100]
  = Some [97; 65533; 65533; 65533; 98; 65533; 99; 65533; 65533; 100]
  /\ decode Utf8 Ignore [97; 241; 128; 128; 225; 128; 194; 98] = Some [97; 98]
  /\ decode Utf8 SurrogateEscape [97; 255; 195; 169; 226; 130] = Some [97; 56575; 233; 56546; 56450]
  /\ encode Utf8 SurrogateEscape [97; 56575; 233; 56546; 56450] = Some [97; 255; 195; 169; 226; 130]
  /\ decode Ascii Replace [97; 195; 169] = Some [97; 65533; 65533]
  /\ decode Latin1 Strict [97; 195; 169] = Some [97; 195; 169]
  /\ decode Utf16le SurrogateEscape [0; 216] = None.
Proof. vm_compute. repeat split; reflexivity. Qed.

(** C125: iterating over the lines (read_lines, copy_logger) decodes each line
    by itself; the claim is that this is the text of the whole output. *)
Definition c125_full_claim : Prop :=
  forall k e d, is_bytes d -> concat_opt (map (decode k e) (split_lines d)) = decode k e d.
(** "a\n" in utf-16-le is 61 00 0A 00: the line ends inside the second character. *)
Theorem c125_full_claim_refuted : ~ c125_full_claim.
Proof.
  intros H. specialize (H Utf16le Strict [97; 0; 10; 0]).
  assert (B : is_bytes [97; 0; 10; 0]) by (repeat apply Forall_cons; try apply Forall_nil; lia).
  specialize (H B). vm_compute in H. discriminate H.
Qed.
Print Assumptions c125_full_claim_refuted.

Theorem c125_lines_partial :
  forall k e d, k <> Utf16le -> is_bytes d ->
  concat_opt (map (decode k e) (split_lines d)) = decode k e d
  /\ forall r ds x, line_reads r ds x -> Forall (fun l => too_long l = false) (split_lines (sr_data r)) -> sr_end r = EndEof ->
     sr_data r = d ->
     match decode k e d with
     | Some t => exists ts, read_lines (decode k e) ds x = (ts, None) /\ List.concat ts = t /\ drop_empty ts = split_lines t
                   /\ List.length ts = List.length (split_lines d)
     | None => exists l1 l l2, split_lines d = l1 ++ l :: l2 /\ decode k e l = None /\ Forall (fun l' => decode k e l' <> None) l1
         /\ exists ts, read_lines (decode k e) ds x = (ts, Some UnicodeError) /\ List.length ts = List.length l1
     end.
Proof.
  intros k e d Hk B. split.
  - remember (List.length d) as n. revert d Heqn B. induction n as [n IH] using lt_wf_ind. intros d -> B.
    destruct (split_lines_cases d) as [N|(l & r & -> & N)].
    + rewrite (split_lines_nonl d N). destruct d as [|y d0]; [reflexivity|]. cbn [map concat_opt].
      destruct (decode k e (y :: d0)); [rewrite app_nil_r|]; reflexivity.
    + rewrite (decode_nl k e l r Hk). apply is_bytes_app in B. rewrite <- app_assoc. cbn [app]. rewrite (split_lines_nl l r N).
      cbn [map concat_opt]. rewrite (IH (List.length r)); [reflexivity| |reflexivity|apply B].
      rewrite !app_length. cbn [List.length]. lia.
  - intros r ds x H F He Ed. apply line_reads_spec in H. destruct H as (_ & _ & H & _). destruct (H He) as [-> H1].
    rewrite Ed in *. assert (Fs : forallb short (split_lines d) = true).
    { apply forallb_forall. intros l Hl. rewrite Forall_forall in F. unfold short. rewrite (F l Hl). reflexivity. }
    destruct H1 as [[-> _]|(m & _ & H1)]; [|congruence].
    replace (take_while short (split_lines d)) with (split_lines d).
    + apply lines_decode; assumption.
    + clear - Fs. revert Fs. induction (split_lines d) as [|l ls IH]; intros Fs; [reflexivity|]. cbn [forallb] in Fs.
      apply andb_prop in Fs. destruct Fs as [F1 F2]. cbn [take_while]. rewrite F1, <- (IH F2). reflexivity.
Qed.
Print Assumptions c125_lines_partial.

Example c125_example :
  (* "é\n", a line with a stray byte, and an unfinished last line *)
  read_lines (decode Utf8 Replace) (split_lines [195; 169; 10; 255; 98; 10; 226; 130]) None
  = ([[233; 10]; [65533; 98; 10]; [65533]], None)
  /\ read_lines (decode Utf8 Strict) (split_lines [195; 169; 10; 255; 98; 10; 226; 130]) None = ([[233; 10]], Some UnicodeError)
  /\ read_lines (decode Utf8 Ignore) (split_lines [195; 169; 10; 226; 130]) None = ([[233; 10]; []], None)
  /\ decode Utf16le Strict [97; 0; 10; 0] = Some [97; 10]
  /\ read_lines (decode Utf16le Strict) (split_lines [97; 0; 10; 0]) None = ([], Some UnicodeError).
Proof. vm_compute. repeat split; reflexivity. Qed.

(** C126: the default error buffer keeps the first error_limit bytes of
    standard error (runner.py 648-660, 836-842), and result.error decodes them
    (result.py 49-52).  The claim: if standard error is valid text, reading
    result.error does not fail. *)
Definition c126_full_claim : Prop :=
  forall k e limit r ds x t b y n, chunk_reads r ds x -> sr_end r = EndEof -> 0 <= limit ->
  encode k Strict t = Some (sr_data r) -> copy_bytearray_limit ds x limit [] = (b, y, n) ->
  decode k e b <> None.

(** 1023 times "a" and then an "é", with the default limit of 1024 bytes. *)
Theorem c126_full_claim_refuted : ~ c126_full_claim.
Proof.
  intros H.
  pose (d := repeat 97 (Z.to_nat 1023) ++ [195; 169]).
  pose (r := {| sr_buf := d; sr_in := []; sr_end := EndEof |}).
  assert (C : chunk_reads r [d] None).
  { eapply ans_data; [vm_compute; reflexivity|vm_compute; discriminate|]. eapply ans_eof. vm_compute. reflexivity. }
  refine (H Utf8 Strict 1024 r [d] None (repeat 97 (Z.to_nat 1023) ++ [233]) (repeat 97 (Z.to_nat 1023) ++ [195]) None 2%nat C eq_refl _ _ _ _).
  - lia.
  - vm_compute. reflexivity.
  - vm_compute. reflexivity.
  - vm_compute. reflexivity.
Qed.
Print Assumptions c126_full_claim_refuted.

(** What is true: the text is the beginning of the standard error, as many
    characters as fit into the limit, followed, if the limit falls inside a
    character, by the handler's replacement for the incomplete one; only
    strict (the default), and utf-16 with surrogateescape, can fail, and only
    then. *)
Theorem c126_error_text_partial :
  forall k e limit r ds x t, chunk_reads r ds x -> sr_end r = EndEof -> 0 <= limit ->
  encode k Strict t = Some (sr_data r) ->
  exists t1 t2 d1 part n, t = t1 ++ t2 /\ encode k Strict t1 = Some d1
  /\ copy_bytearray_limit ds x limit [] = (d1 ++ part, None, n)
  /\ (part = [] \/ exists c t3 rest, t2 = c :: t3 /\ raw k c = Some (part ++ rest) /\ rest <> [])
  /\ (part = [] -> decode k e (d1 ++ part) = Some t1)
  /\ (part <> [] -> total k e -> decode k e (d1 ++ part) = Some (t1 ++ replacement e part))
  /\ (part <> [] -> decode k Strict (d1 ++ part) = None)
  /\ (Z.of_nat (List.length (sr_data r)) <= limit -> part = [] /\ t2 = []).
Proof.
  intros k e limit r ds x t H He Hl Ht. destruct (copy_limit_exact r ds x limit H Hl) as (got & rest & A & B & C).
  rewrite (B (or_introl He)), app_nil_r in A. subst got. rewrite He in C. cbn [end_exn] in C.
  destruct (cut_spec k t _ (Z.to_nat limit) Ht) as (t1 & t2 & d1 & part & E1 & E2 & E3 & E4).
  exists t1, t2, d1, part, (S (List.length ds)). rewrite C, E3.
  split; [exact E1|]. split; [exact E2|]. split; [reflexivity|]. split; [exact E4|].
  assert (D : forall e', decode k e' (d1 ++ part) = option_map (app t1) (decode k e' part)) by (intros; apply decode_enc_app; exact E2).
  rewrite !D. split; [|split; [|split]].
  - intros ->. cbn. rewrite app_nil_r. reflexivity.
  - intros N T. destruct E4 as [E4|(c & t3 & q & _ & E4 & Nq)]; [congruence|].
    rewrite (decode_part_total k e c part q T E4 Nq N). reflexivity.
  - intros N. destruct E4 as [E4|(c & t3 & q & _ & E4 & Nq)]; [congruence|].
    rewrite (decode_part_strict k c part q N E4 Nq). reflexivity.
  - intros L. rewrite firstn_all2 in E3 by lia.
    rewrite E1, encode_app, E2, E3 in Ht. destruct (encode k Strict t2) as [d2|] eqn:Ed2; [|discriminate Ht].
    injection Ht as Ht. apply app_inv_head in Ht. subst d2.
    destruct E4 as [->|(c & t3 & q & -> & E4 & Nq)].
    + split; [reflexivity|]. destruct t2 as [|c t2]; [reflexivity|]. cbn [encode] in Ed2. unfold encode_one in Ed2.
      destruct (raw k c) as [b|] eqn:Eb; [|discriminate Ed2]. destruct (encode k Strict t2); [|discriminate Ed2].
      apply raw_nonempty in Eb. destruct b; [congruence|discriminate Ed2].
    + exfalso. cbn [encode] in Ed2. unfold encode_one in Ed2. rewrite E4 in Ed2.
      destruct (encode k Strict t3) as [d3|]; [|discriminate Ed2]. injection Ed2 as Ed2.
      apply (f_equal (@List.length Z)) in Ed2. rewrite !app_length in Ed2. destruct q; [congruence|cbn in Ed2; lia].
Qed.
Print Assumptions c126_error_text_partial.

(** "aé€" cut after 2, 3 and 5 bytes. *)
Example c126_example :
  let d := [97; 195; 169; 226; 130; 172] in
  encode Utf8 Strict [97; 233; 8364] = Some d
  /\ copy_bytearray_limit [d] None 2 [] = ([97; 195], None, 2%nat)
  /\ decode Utf8 Strict [97; 195] = None /\ decode Utf8 Replace [97; 195] = Some [97; 65533]
  /\ decode Utf8 Ignore [97; 195] = Some [97] /\ decode Utf8 SurrogateEscape [97; 195; 169; 226; 130] = Some [97; 233; 56546; 56450]
  /\ decode Utf8 Strict [97; 195; 169] = Some [97; 233].
Proof. vm_compute. repeat split; reflexivity. Qed.
