(** Theorems for C51, C52 (incremental decoding, newlines). *)
From Verif Require Import Utf8Model Utf8Spec Utf8Proofs.
Open Scope Z_scope.

(** C51: decoding is the inverse of encoding, exactly. *)
Theorem c51_decode_inverts_encode :
  forall d t, utf8_decode d = Some t <-> utf8_encode t = Some d.
Proof. exact decode_iff. Qed.
Print Assumptions c51_decode_inverts_encode.

(** Chunk by chunk decoding gives the same text or the same failure. *)
Theorem c51_chunks_do_not_matter :
  forall chunks, feed_all false chunks = utf8_decode (List.concat chunks).
Proof. exact feed_all_plain. Qed.
Print Assumptions c51_chunks_do_not_matter.

(** After any chunks, everything decodable has been delivered: the bytes held
    back are a proper prefix of one character (or of an encoded surrogate). *)
Theorem c51_nothing_held_back :
  forall chunks t d, feed (make_decoder false) chunks = Some (t, d) ->
  exists b, utf8_encode t = Some b /\ List.concat chunks = b ++ d_buf d /\ incomplete (d_buf d).
Proof.
  intros chunks t d H. unfold make_decoder in H. rewrite feed_plain in H. destruct chunks as [|c cs].
  - inversion H; subst. exists []. repeat split. left. reflexivity.
  - cbn [app] in H. destruct (utf8_decode_part (List.concat (c :: cs)) false) as [[t' r]|] eqn:E; [|discriminate H].
    inversion H; subst. apply part_spec in E. destruct E as (b & A & B & C). exists b. repeat split; auto.
    cbn [d_buf]. destruct C as [->|[_ [C|C]]]; [left; reflexivity| |].
    + apply step_more in C. destruct C as [C|C]; [left; exact C|right; left; exact C].
    + right; right. destruct r as [|b0 [|x [|y r]]]; try discriminate C. cbn [cut_surrogate] in C.
      apply andb_prop in C. destruct C as [C1 C2]. apply Z.eqb_eq in C1. subst b0. exists x. split; [reflexivity|]. rng. lia.
Qed.
Print Assumptions c51_nothing_held_back.

Example c51_example :
  utf8_encode [104; 233; 8364; 128512] = Some [104; 195; 169; 226; 130; 172; 240; 159; 152; 128]
  /\ feed_all false [[104; 195]; [169; 226]; []; [130]; [172; 240; 159; 152]; [128]] = Some [104; 233; 8364; 128512]
  /\ feed_all false [[104; 195]; [104]] = None
  /\ feed_all false [[104; 195]] = None
  (* ED A9 is ill-formed, which is noticed with the next byte *)
  /\ feed (make_decoder false) [[104; 237; 169]] = Some ([104], {| d_buf := [237; 169]; d_cr := false; d_normalize := false |})
  /\ feed (make_decoder false) [[104; 237; 169]; [128]] = None.
Proof. repeat split; reflexivity. Qed.

(** C52: newline normalisation. *)
Theorem c52_newlines_normalised :
  forall chunks, 
  match utf8_decode (List.concat chunks), feed_all true chunks with
  | Some t, Some out => normalized t out
  | None, None => True
  | _, _ => False
  end.
Proof.
  intro chunks. rewrite feed_all_normalize. destruct (utf8_decode (List.concat chunks)); [apply nl_replace_norm|exact I].
Qed.
Print Assumptions c52_newlines_normalised.
(** The specification determines the result. *)
Theorem c52_normalised_unique : forall t a b, normalized t a -> normalized t b -> a = b.
Proof. intros t a b H1 H2. apply normalized_fun in H1, H2. congruence. Qed.
Print Assumptions c52_normalised_unique.

Example c52_example :
  feed_all true [[97; 13]; [10; 98; 13]; [13]; [10]; [99; 13]] = Some [97; 10; 98; 10; 10; 99; 10]
  /\ normalized [97; 13; 10; 98; 13; 13; 10; 99; 13] [97; 10; 98; 10; 10; 99; 10].
Proof.
  split; [reflexivity|]. apply n_other; [discriminate|]. apply n_crlf. apply n_other; [discriminate|].
  apply n_cr; [|discriminate]. apply n_crlf. apply n_other; [discriminate|]. apply n_cr; [constructor|discriminate].
Qed.
