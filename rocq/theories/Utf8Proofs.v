From Verif Require Import Utf8Model Utf8Spec.
Open Scope Z_scope.
Ltac Zify.zify_post_hook ::= Z.div_mod_to_equations.

Lemma in_range_iff lo hi x : in_range lo hi x = true <-> lo <= x <= hi.
Proof. unfold in_range. rewrite andb_true_iff, !Z.leb_le. tauto. Qed.
Lemma in_range_false lo hi x : in_range lo hi x = false <-> ~ (lo <= x <= hi).
Proof. rewrite <- in_range_iff. destruct (in_range lo hi x); split; congruence. Qed.

Ltac rng := repeat match goal with
  | H : in_range _ _ _ = true |- _ => apply in_range_iff in H
  | H : in_range _ _ _ = false |- _ => apply in_range_false in H
  end.
Ltac decide_range := match goal with
  | |- context[in_range ?a ?b ?x] =>
      first [ replace (in_range a b x) with true by (symmetry; apply in_range_iff; lia)
            | replace (in_range a b x) with false by (symmetry; apply in_range_false; lia) ]
  end.
Lemma second_ok_iff b x : second_ok b x = true <->
  (b = 224 /\ 160 <= x <= 191) \/ (b = 237 /\ 128 <= x <= 159) \/ (b = 240 /\ 144 <= x <= 191) \/ (b = 244 /\ 128 <= x <= 143)
  \/ (b <> 224 /\ b <> 237 /\ b <> 240 /\ b <> 244 /\ 128 <= x <= 191).
Proof.
  unfold second_ok, cont. destruct (Z.eqb_spec b 224), (Z.eqb_spec b 237), (Z.eqb_spec b 240), (Z.eqb_spec b 244);
    rewrite in_range_iff; intuition lia.
Qed.
Ltac decide_second := match goal with
  | |- context[second_ok ?b ?x] => replace (second_ok b x) with true by (symmetry; apply second_ok_iff; lia)
  end.

Ltac inv_some H := match type of H with
  | Some ?x = Some ?y => let K := fresh in assert (K : y = x) by congruence; clear H; subst y
  | DChar ?x ?r = DChar ?y ?q => let K := fresh in let K2 := fresh in
      assert (K : y = x) by congruence; assert (K2 : q = r) by congruence; clear H; subst y q
  end.
Lemma enc_dec c b r : encode_cp c = Some b -> decode_step (b ++ r) = DChar c r.
Proof.
  unfold encode_cp. intro H.
  repeat match type of H with (if ?t then _ else _) = _ => destruct t eqn:?E end; try discriminate H; inv_some H; rng;
    cbn [app decode_step]; unfold cont.
  - decide_range. reflexivity.
  - do 2 decide_range. decide_second. f_equal. lia.
  - do 3 decide_range. decide_second. decide_range. cbn [andb]. f_equal. lia.
  - do 4 decide_range. decide_second. do 2 decide_range. cbn [andb]. f_equal. lia.
Qed.

Lemma dec_enc d c r : decode_step d = DChar c r -> exists b, encode_cp c = Some b /\ d = b ++ r.
Proof.
  unfold decode_step, cont. intro H. destruct d as [|b d]; [discriminate H|].
  destruct (in_range 0 127 b) eqn:R1; [|destruct (in_range 194 223 b) eqn:R2; [|destruct (in_range 224 239 b) eqn:R3; [|destruct (in_range 240 244 b) eqn:R4; [|discriminate H]]]].
  - inv_some H. exists [b]. unfold encode_cp. rewrite R1. auto.
  - destruct d as [|x d]; [discriminate H|]. destruct (second_ok b x) eqn:S; [|discriminate H]. inv_some H.
    apply second_ok_iff in S. rng. unfold encode_cp.
    eexists. split; [do 2 decide_range; reflexivity|]. cbn [app]. f_equal; [lia|]. f_equal. lia.
  - destruct d as [|x [|y d]]; [discriminate H| |].
    { destruct (second_ok b x); discriminate H. }
    destruct (second_ok b x) eqn:S; [|discriminate H]. destruct (in_range 128 191 y) eqn:Y; [|discriminate H].
    cbn [andb] in H. inv_some H. apply second_ok_iff in S. rng. unfold encode_cp.
    eexists. split; [do 4 decide_range; reflexivity|]. cbn [app]. f_equal; [lia|]. f_equal; [lia|]. f_equal. lia.
  - destruct d as [|x [|y [|z d]]]; [discriminate H| | |].
    { destruct (second_ok b x); discriminate H. }
    { destruct (second_ok b x && in_range 128 191 y); discriminate H. }
    destruct (second_ok b x) eqn:S; [|discriminate H]. destruct (in_range 128 191 y) eqn:Y; [|discriminate H].
    destruct (in_range 128 191 z) eqn:Zz; [|discriminate H].
    cbn [andb] in H. inv_some H. apply second_ok_iff in S. rng. unfold encode_cp.
    eexists. split; [do 5 decide_range; reflexivity|]. cbn [app]. f_equal; [lia|]. f_equal; [lia|]. f_equal; [lia|]. f_equal. lia.
Qed.

Lemma encode_cp_nonempty c b : encode_cp c = Some b -> b <> [].
Proof.
  unfold encode_cp. intro H.
  repeat match type of H with (if ?t then _ else _) = _ => destruct t end; try discriminate H; intro K; subst b; discriminate H.
Qed.

Lemma step_char_app d c r e : decode_step d = DChar c r -> decode_step (d ++ e) = DChar c (r ++ e).
Proof.
  intro H. destruct (dec_enc _ _ _ H) as (b & E & ->). rewrite <- app_assoc. now apply enc_dec.
Qed.
Lemma step_bad_app d e : decode_step d = DBad -> decode_step (d ++ e) = DBad.
Proof.
  destruct d as [|b d]; [discriminate|]. cbn [app decode_step].
  destruct (in_range 0 127 b); [discriminate|]. destruct (in_range 194 223 b).
  { destruct d as [|x d]; [discriminate|]. cbn. destruct (second_ok b x); [discriminate|reflexivity]. }
  destruct (in_range 224 239 b).
  { destruct d as [|x [|y d]]; cbn; try discriminate.
    - destruct (second_ok b x); [discriminate|]. intros _. destruct e; reflexivity.
    - destruct (second_ok b x && cont y); [discriminate|reflexivity]. }
  destruct (in_range 240 244 b); [|reflexivity].
  destruct d as [|x [|y [|z d]]]; cbn; try discriminate.
  - destruct (second_ok b x); [discriminate|]. intros _. destruct e as [|? [|? ?]]; reflexivity.
  - destruct (second_ok b x && cont y) eqn:E; [discriminate|]. intros _. destruct e; [reflexivity|]. reflexivity.
  - destruct (second_ok b x && cont y && cont z); [discriminate|reflexivity].
Qed.
(** DMore means: a proper prefix of the encoding of some character. *)
Lemma step_more d : decode_step d = DMore <-> (d = [] \/ exists c b more, encode_cp c = Some b /\ b = d ++ more /\ more <> []).
Proof.
  split.
  - destruct d as [|b d]; [auto|]. intro H. right. cbn [decode_step] in H.
    destruct (in_range 0 127 b) eqn:R1; [discriminate H|]. destruct (in_range 194 223 b) eqn:R2.
    { destruct d as [|x d]; [|destruct (second_ok b x); discriminate H].
      assert (D : decode_step [b; 128] = DChar ((b - 192) * 64 + (128 - 128)) []).
      { cbn [decode_step]. rewrite R1, R2. rng. decide_second. reflexivity. }
      apply dec_enc in D. destruct D as (bb & D1 & D2). rewrite app_nil_r in D2. subst bb.
      do 3 eexists. split; [exact D1|]. split; [reflexivity|discriminate]. }
    destruct (in_range 224 239 b) eqn:R3.
    { assert (X : exists x y, second_ok b x = true /\ cont y = true /\ exists m, [x; y] = d ++ m /\ m <> []).
      { destruct d as [|x [|y d]].
        - exists (if b =? 224 then 160 else 128), 128. split; [apply second_ok_iff; rng; destruct (Z.eqb_spec b 224); lia|].
          split; [reflexivity|]. eexists. split; [reflexivity|discriminate].
        - destruct (second_ok b x) eqn:S; [|discriminate H]. exists x, 128. split; [exact S|]. split; [reflexivity|].
          exists [128]. split; [reflexivity|discriminate].
        - destruct (second_ok b x && cont y); discriminate H. }
      destruct X as (x & y & S & C & m & E1 & E2).
      assert (D : decode_step [b; x; y] = DChar ((b - 224) * 4096 + (x - 128) * 64 + (y - 128)) []).
      { cbn [decode_step]. rewrite R1, R2, R3, S, C. reflexivity. }
      apply dec_enc in D. destruct D as (bb & D1 & D2). rewrite app_nil_r in D2. subst bb.
      do 2 eexists. exists m. split; [exact D1|]. split; [cbn; now rewrite E1|exact E2]. }
    destruct (in_range 240 244 b) eqn:R4; [|discriminate H].
    assert (X : exists x y z, second_ok b x = true /\ cont y = true /\ cont z = true /\ exists m, [x; y; z] = d ++ m /\ m <> []).
    { destruct d as [|x [|y [|z d]]].
      - exists (if b =? 240 then 144 else 128), 128, 128. split; [apply second_ok_iff; rng; destruct (Z.eqb_spec b 240); lia|].
        split; [reflexivity|]. split; [reflexivity|]. eexists. split; [reflexivity|discriminate].
      - destruct (second_ok b x) eqn:S; [|discriminate H]. exists x, 128, 128. split; [exact S|]. split; [reflexivity|]. split; [reflexivity|].
        exists [128; 128]. split; [reflexivity|discriminate].
      - destruct (second_ok b x) eqn:S; [|discriminate H]. destruct (cont y) eqn:C; [|discriminate H].
        exists x, y, 128. split; [exact S|]. split; [exact C|]. split; [reflexivity|].
        exists [128]. split; [reflexivity|discriminate].
      - destruct (second_ok b x && cont y && cont z); discriminate H. }
    destruct X as (x & y & z & S & C & C2 & m & E1 & E2).
    assert (D : decode_step [b; x; y; z] = DChar ((b - 240) * 262144 + (x - 128) * 4096 + (y - 128) * 64 + (z - 128)) []).
    { cbn [decode_step]. rewrite R1, R2, R3, R4, S, C, C2. reflexivity. }
    apply dec_enc in D. destruct D as (bb & D1 & D2). rewrite app_nil_r in D2. subst bb.
    do 2 eexists. exists m. split; [exact D1|]. split; [cbn; now rewrite E1|exact E2].
  - intros [->|(c & b & more & E1 & E2 & E3)]; [reflexivity|].
    pose proof (enc_dec c b [] E1) as D. rewrite app_nil_r, E2 in D.
    destruct (decode_step d) eqn:S; [|reflexivity|].
    + rewrite (step_char_app _ _ _ more S) in D. inversion D. destruct rest; [cbn in *; congruence|discriminate].
    + rewrite (step_bad_app _ more S) in D. discriminate D.
Qed.

Lemma char_shorter d c r : decode_step d = DChar c r -> (List.length r < List.length d)%nat.
Proof.
  intro H. apply dec_enc in H. destruct H as (b & E & ->). apply encode_cp_nonempty in E.
  rewrite app_length. destruct b; [congruence|cbn; lia].
Qed.

Lemma loop_fuel f : forall d fin, (List.length d <= f)%nat -> utf8_loop f d fin = utf8_loop (List.length d) d fin.
Proof.
  assert (G : forall n f d fin, (List.length d <= n)%nat -> (n <= f)%nat -> utf8_loop f d fin = utf8_loop n d fin).
  { induction n as [|n IH]; intros f0 d fin H1 H2.
    - destruct d; [destruct f0; reflexivity|cbn in H1; lia].
    - destruct f0 as [|f0]; [lia|]. destruct d as [|x d]; [reflexivity|]. cbn [utf8_loop].
      destruct (decode_step (x :: d)) eqn:E; [|reflexivity|reflexivity].
      pose proof (char_shorter _ _ _ E) as L. cbn in L, H1. rewrite (IH f0) by lia. reflexivity. }
  intros d fin H. apply G; lia.
Qed.

Lemma cut_bad d : cut_surrogate d = true -> decode_step d = DBad.
Proof.
  destruct d as [|b [|x [|y d]]]; try discriminate. cbn [cut_surrogate]. intros H. apply andb_prop in H. destruct H as [H1 H2].
  apply Z.eqb_eq in H1. subst b. cbn [decode_step]. change (in_range 0 127 237) with false. change (in_range 194 223 237) with false.
  change (in_range 224 239 237) with true. destruct (second_ok 237 x) eqn:E; [|reflexivity]. apply second_ok_iff in E. rng. lia.
Qed.

(** Unfolding of one step. *)
Lemma part_step d fin : utf8_decode_part d fin =
  match d with
  | [] => Some ([], [])
  | _ => match decode_step d with
         | DChar c r => match utf8_decode_part r fin with Some (t, rest) => Some (c :: t, rest) | None => None end
         | DMore => if fin then None else Some ([], d)
         | DBad => if negb fin && cut_surrogate d then Some ([], d) else None
         end
  end.
Proof.
  unfold utf8_decode_part. destruct d as [|x d]; [reflexivity|]. cbn [List.length utf8_loop].
  destruct (decode_step (x :: d)) eqn:E; try reflexivity.
  pose proof (char_shorter _ _ _ E) as L. cbn in L. rewrite loop_fuel by lia. reflexivity.
Qed.

Lemma part_spec d : forall fin t rest, utf8_decode_part d fin = Some (t, rest) <->
  exists b, utf8_encode t = Some b /\ d = b ++ rest /\ (rest = [] \/ (fin = false /\ (decode_step rest = DMore \/ cut_surrogate rest = true))).
Proof.
  remember (List.length d) as n. revert d Heqn. induction n as [n IH] using lt_wf_ind. intros d -> fin t rest.
  rewrite part_step. destruct d as [|x d].
  - split.
    + intro H. inversion H; subst. exists []. auto.
    + intros (b & A & B & C). destruct b; [|discriminate B]. cbn in B. subst rest.
      destruct t as [|c t]; [reflexivity|]. cbn in A. destruct (encode_cp c) eqn:E; [|discriminate A].
      destruct (utf8_encode t); [|discriminate A]. apply encode_cp_nonempty in E. inversion A. destruct b; [congruence|discriminate].
  - destruct (decode_step (x :: d)) as [c r| |] eqn:E.
    + pose proof (char_shorter _ _ _ E) as L. pose proof (dec_enc _ _ _ E) as (bc & E1 & E2). split.
      * intro H. destruct (utf8_decode_part r fin) as [[t' rest']|] eqn:P; [|discriminate H]. inversion H; subst.
        apply (IH _ L r eq_refl) in P. destruct P as (b & A & B & C). exists (bc ++ b). cbn. rewrite E1, A. split; [reflexivity|].
        rewrite E2, B, app_assoc. auto.
      * intros (b & A & B & C). destruct t as [|c' t].
        { cbn in A. inversion A; subst b. cbn in B. subst rest. destruct C as [C|[_ [C|C]]]; [discriminate C|congruence|apply cut_bad in C; congruence]. }
        cbn in A. destruct (encode_cp c') as [b1|] eqn:E3; [|discriminate A]. destruct (utf8_encode t) as [b2|] eqn:E4; [|discriminate A].
        inversion A; subst b. pose proof (enc_dec c' b1 (b2 ++ rest) E3) as D.
        rewrite <- app_assoc in B. rewrite <- B, E in D. inversion D; subst c' r.
        assert (P : utf8_decode_part (b2 ++ rest) fin = Some (t, rest)).
        { apply (IH _ L (b2 ++ rest) eq_refl). exists b2. auto. }
        rewrite P. reflexivity.
    + split.
      * destruct fin; [discriminate|]. intro H. inversion H; subst. exists []. auto 7.
      * intros (b & A & B & C). destruct t as [|c' t].
        { cbn in A. inversion A; subst b. cbn in B. subst rest. destruct C as [C|[-> C]]; [discriminate C|reflexivity]. }
        cbn in A. destruct (encode_cp c') as [b1|] eqn:E3; [|discriminate A]. destruct (utf8_encode t) as [b2|] eqn:E4; [|discriminate A].
        inversion A; subst b. pose proof (enc_dec c' b1 (b2 ++ rest) E3) as D.
        rewrite <- app_assoc in B. rewrite <- B, E in D. discriminate D.
    + split.
      { destruct (negb fin && cut_surrogate (x :: d)) eqn:Cs; [|discriminate]. intros H. inversion H; subst.
        apply andb_prop in Cs. destruct Cs as [Cs1 Cs2]. exists []. destruct fin; [discriminate Cs1|]. repeat split. right. auto. }
      intros (b & A & B & C). destruct t as [|c' t].
      { cbn in A. inversion A; subst b. cbn [app] in B. subst rest. destruct C as [C|[-> [C|C]]]; [discriminate C|congruence|].
        rewrite C. reflexivity. }
      cbn in A. destruct (encode_cp c') as [b1|] eqn:E3; [|discriminate A]. destruct (utf8_encode t) as [b2|] eqn:E4; [|discriminate A].
      inversion A; subst b. pose proof (enc_dec c' b1 (b2 ++ rest) E3) as D.
      rewrite <- app_assoc in B. rewrite <- B, E in D. discriminate D.
Qed.

Lemma decode_iff d t : utf8_decode d = Some t <-> utf8_encode t = Some d.
Proof.
  unfold utf8_decode. split.
  - destruct (utf8_decode_part d true) as [[t' r]|] eqn:E; [|discriminate]. intro H. inversion H; subst.
    apply part_spec in E. destruct E as (b & A & -> & [->|[C _]]); [now rewrite app_nil_r|discriminate C].
  - intro H. assert (P : utf8_decode_part d true = Some (t, [])).
    { apply part_spec. exists d. rewrite app_nil_r. auto. }
    now rewrite P.
Qed.

Lemma part_app d1 : forall d2 fin, utf8_decode_part (d1 ++ d2) fin =
  match utf8_decode_part d1 false with
  | None => None
  | Some (t1, r1) => match utf8_decode_part (r1 ++ d2) fin with None => None | Some (t2, r2) => Some (t1 ++ t2, r2) end
  end.
Proof.
  remember (List.length d1) as n. revert d1 Heqn. induction n as [n IH] using lt_wf_ind. intros d1 -> d2 fin.
  rewrite (part_step d1). destruct d1 as [|x d].
  - cbn [app]. destruct (utf8_decode_part d2 fin) as [[t2 r2]|]; reflexivity.
  - destruct (decode_step (x :: d)) as [c r| |] eqn:E.
    + rewrite part_step. rewrite (step_char_app _ _ _ d2 E). cbn [app].
      pose proof (char_shorter _ _ _ E) as L. rewrite (IH _ L r eq_refl).
      destruct (utf8_decode_part r false) as [[t1 r1]|]; [|reflexivity].
      destruct (utf8_decode_part (r1 ++ d2) fin) as [[t2 r2]|]; reflexivity.
    + destruct (utf8_decode_part ((x :: d) ++ d2) fin) as [[t2 r2]|]; reflexivity.
    + cbn [negb andb]. destruct (cut_surrogate (x :: d)) eqn:Cs.
      * destruct (utf8_decode_part ((x :: d) ++ d2) fin) as [[t2 r2]|]; reflexivity.
      * rewrite part_step. rewrite (step_bad_app _ d2 E). cbn [app].
        assert (Cn : negb fin && cut_surrogate (x :: d ++ d2) = false).
        { apply andb_false_intro2. destruct d2 as [|y d2]; [rewrite app_nil_r; exact Cs|].
          destruct d as [|z d]; [|destruct d; reflexivity]. destruct d2; [|reflexivity].
          cbn [app cut_surrogate]. apply andb_false_intro1. destruct (Z.eqb_spec x 237) as [->|]; [discriminate E|reflexivity]. }
        rewrite Cn. reflexivity.
Qed.

(** Feeding without newline normalisation. *)
Lemma feed_plain chunks : forall buf,
  feed {| d_buf := buf; d_cr := false; d_normalize := false |} chunks
  = match chunks with
    | [] => Some ([], {| d_buf := buf; d_cr := false; d_normalize := false |})
    | _ => match utf8_decode_part (buf ++ List.concat chunks) false with
           | None => None
           | Some (t, r) => Some (t, {| d_buf := r; d_cr := false; d_normalize := false |})
           end
    end.
Proof.
  induction chunks as [|c chunks IH]; intro buf; [reflexivity|]. cbn [feed]. unfold decoder_decode. cbn [d_buf d_normalize d_cr].
  unfold utf8_inc. cbn [List.concat]. rewrite (app_assoc buf c), (part_app (buf ++ c)).
  destruct (utf8_decode_part (buf ++ c) false) as [[t1 r1]|] eqn:E; [|reflexivity].
  rewrite IH. destruct chunks as [|c2 cs].
  - cbn [List.concat]. rewrite !app_nil_r.
    assert (X : utf8_decode_part r1 false = Some ([], r1)).
    { apply part_spec in E. destruct E as (b & _ & _ & C). apply part_spec. exists []. split; [reflexivity|]. split; [reflexivity|].
      destruct C as [->|[_ C]]; auto. }
    rewrite X, app_nil_r. reflexivity.
  - destruct (utf8_decode_part (r1 ++ List.concat (c2 :: cs)) false) as [[t2 r2]|]; reflexivity.
Qed.

Lemma part_idem r fin1 d t : utf8_decode_part d fin1 = Some (t, r) -> utf8_decode_part r false = Some ([], r).
Proof.
  intro E. apply part_spec in E. destruct E as (b & _ & _ & C). apply part_spec. exists []. split; [reflexivity|]. split; [reflexivity|].
  destruct C as [->|[_ C]]; auto.
Qed.

Lemma feed_all_plain chunks : feed_all false chunks = utf8_decode (List.concat chunks).
Proof.
  unfold feed_all, make_decoder, utf8_decode. rewrite feed_plain. destruct chunks as [|c cs].
  - reflexivity.
  - cbn [app]. pose proof (part_app (List.concat (c :: cs)) [] true) as P. rewrite (app_nil_r (List.concat (c :: cs))) in P. rewrite P.
    destruct (utf8_decode_part (List.concat (c :: cs)) false) as [[t r]|]; [|reflexivity].
    unfold decoder_decode, utf8_inc. cbn [d_buf d_normalize d_cr].
    destruct (utf8_decode_part (r ++ []) true) as [[t2 r2]|]; reflexivity.
Qed.

(** * Newlines *)
Lemma nl_replace_cons t : nl_replace t = match t with
  | [] => []
  | x :: r => if x =? 13 then 10 :: nl_replace (match r with y :: r' => if y =? 10 then r' else r | [] => [] end)
              else x :: nl_replace r
  end.
Proof.
  destruct t as [|x r]; [reflexivity|]. destruct (Z.eqb_spec x 13) as [->|Hx].
  - destruct r as [|y r]; [reflexivity|]. destruct (Z.eqb_spec y 10) as [->|Hy]; [reflexivity|].
    destruct y as [|p|p]; try reflexivity. do 4 (destruct p as [p|p|]; try reflexivity). congruence.
  - destruct x as [|p|p]; try reflexivity. do 4 (destruct p as [p|p|]; try reflexivity). congruence.
Qed.

Lemma nl_replace_norm t : normalized t (nl_replace t).
Proof.
  remember (List.length t) as n. revert t Heqn. induction n as [n IH] using lt_wf_ind. intros t ->.
  rewrite nl_replace_cons. destruct t as [|x r]; [constructor|]. destruct (Z.eqb_spec x 13) as [->|Hx].
  - destruct r as [|y r].
    + apply n_cr; [constructor|discriminate].
    + destruct (Z.eqb_spec y 10) as [->|Hy].
      * apply n_crlf. eapply IH; [|reflexivity]. cbn. lia.
      * apply n_cr; [eapply IH; [|reflexivity]; cbn; lia|cbn; congruence].
  - apply n_other; [exact Hx|]. eapply IH; [|reflexivity]. cbn. lia.
Qed.
Lemma normalized_fun t a : normalized t a -> a = nl_replace t.
Proof.
  induction 1 as [|a b H IH|a b H IH Hh|x a b Hx H IH]; rewrite nl_replace_cons; cbn.
  - reflexivity.
  - now rewrite <- IH.
  - rewrite IH. destruct a as [|y a]; [reflexivity|]. destruct (Z.eqb_spec y 10); [subst; cbn in Hh; congruence|reflexivity].
  - destruct (Z.eqb_spec x 13); [congruence|]. now rewrite IH.
Qed.

(** Splitting anywhere except inside a CR LF. *)
Lemma nl_replace_app a b : (ends_cr a = true -> hd_error b <> Some 10) -> nl_replace (a ++ b) = nl_replace a ++ nl_replace b.
Proof.
  remember (List.length a) as n. revert a Heqn. induction n as [n IH] using lt_wf_ind. intros a -> H.
  destruct a as [|x a]; [reflexivity|]. cbn [app].
  assert (HE : forall y l, ends_cr (y :: l) = match l with [] => y =? 13 | _ => ends_cr l end).
  { intros y l. unfold ends_cr. destruct l as [|z l]; [reflexivity|].
    change (rev (y :: z :: l)) with (rev (z :: l) ++ [y]). destruct (rev (z :: l)) eqn:E; [|reflexivity].
    apply (f_equal (@rev Z)) in E. rewrite rev_involutive in E. discriminate E. }
  rewrite (nl_replace_cons (x :: a ++ b)), (nl_replace_cons (x :: a)). destruct (Z.eqb_spec x 13) as [->|Hx].
  - destruct a as [|y a]; cbn [app].
    + destruct b as [|y b]; [reflexivity|]. destruct (Z.eqb_spec y 10) as [->|Hy]; [|reflexivity].
      exfalso. apply H; reflexivity.
    + destruct (Z.eqb_spec y 10) as [->|Hy].
      * f_equal. eapply IH; [|reflexivity|]; [cbn; lia|]. intro E. apply H. rewrite !HE. destruct a; [discriminate E|exact E].
      * cbn [app]. f_equal. rewrite <- (IH (List.length (y :: a))); [reflexivity|cbn; lia|reflexivity|].
        intro E. apply H. rewrite HE. exact E.
  - cbn [app]. f_equal. eapply IH; [|reflexivity|]; [cbn; lia|]. intro E. apply H. rewrite HE. destruct a; [discriminate E|exact E].
Qed.

Lemma ends_cr_split t : ends_cr t = true -> t = removelast t ++ [13].
Proof.
  intro H. unfold ends_cr in H. destruct (rev t) as [|x l] eqn:E; [discriminate H|].
  apply Z.eqb_eq in H. subst x. apply (f_equal (@rev Z)) in E. rewrite rev_involutive in E. cbn in E. subst t.
  rewrite removelast_last. reflexivity.
Qed.

(** State of the newline decoder after input so far [t]: what was returned plus
    a pending CR. *)
Definition nl_state (t : text) : text * bool :=
  if ends_cr t then (nl_replace (removelast t), true) else (nl_replace t, false).

Lemma ends_cr_app a x l : ends_cr (a ++ x :: l) = ends_cr (x :: l).
Proof.
  unfold ends_cr. rewrite rev_app_distr. destruct (rev (x :: l)) eqn:E; [|reflexivity].
  apply (f_equal (@rev Z)) in E. rewrite rev_involutive in E. discriminate E.
Qed.

Lemma nl_inc_step t out : let (a, p) := nl_state t in
  let (b, q) := nl_inc p out false in nl_state (t ++ out) = (a ++ b, q).
Proof.
  unfold nl_state. destruct (ends_cr t) eqn:E.
  - unfold nl_inc. destruct out as [|x out].
    + cbn. rewrite app_nil_r, E. now rewrite app_nil_r.
    + cbn [andb]. rewrite ends_cr_app. rewrite (ends_cr_split t E). 
      assert (E2 : ends_cr (13 :: x :: out) = ends_cr (x :: out)) by (apply (ends_cr_app [13])).
      rewrite E2. destruct (ends_cr (x :: out)) eqn:E3; cbn [andb negb].
      * f_equal. rewrite removelast_last. rewrite <- app_assoc. cbn [app].
        rewrite removelast_app by discriminate.
        rewrite <- nl_replace_app; [reflexivity|]. intros _.
        cbn. destruct out; cbn; discriminate.
      * f_equal. rewrite removelast_last, <- app_assoc. cbn [app]. rewrite <- nl_replace_app; [reflexivity|]. intros _. discriminate.
  - unfold nl_inc. cbn [andb]. destruct out as [|x out].
    + cbn. rewrite app_nil_r, E. now rewrite app_nil_r.
    + rewrite ends_cr_app. destruct (ends_cr (x :: out)) eqn:E3; cbn [andb negb].
      * f_equal. rewrite removelast_app by discriminate. apply nl_replace_app. congruence.
      * f_equal. apply nl_replace_app. congruence.
Qed.
Lemma nl_inc_final t out : let (a, p) := nl_state t in a ++ fst (nl_inc p out true) = nl_replace (t ++ out).
Proof.
  unfold nl_state. destruct (ends_cr t) eqn:E.
  - unfold nl_inc. replace (match out with [] => true | _ => true end) with true by (destruct out; reflexivity).
    cbn [andb negb]. rewrite andb_false_r. cbn [fst]. rewrite (ends_cr_split t E) at 2. rewrite <- app_assoc. cbn [app].
    rewrite nl_replace_app; [reflexivity|]. intros _. discriminate.
  - unfold nl_inc. cbn [andb negb]. rewrite andb_false_r. cbn [fst]. symmetry. apply nl_replace_app. congruence.
Qed.

(** The two decoders fed with the same chunks. *)
Lemma feed_normalize chunks : forall buf t0,
  feed {| d_buf := buf; d_cr := snd (nl_state t0); d_normalize := true |} chunks
  = match feed {| d_buf := buf; d_cr := false; d_normalize := false |} chunks with
    | None => None
    | Some (t, d) => Some (skipn (List.length (fst (nl_state t0))) (fst (nl_state (t0 ++ t))),
                           {| d_buf := d_buf d; d_cr := snd (nl_state (t0 ++ t)); d_normalize := true |})
    end
  /\ (forall t d, feed {| d_buf := buf; d_cr := false; d_normalize := false |} chunks = Some (t, d) ->
        exists more, fst (nl_state (t0 ++ t)) = fst (nl_state t0) ++ more).
Proof.
  induction chunks as [|c chunks IH]; intros buf t0; cbn [feed].
  - cbn. rewrite app_nil_r. split.
    + rewrite skipn_all. reflexivity.
    + intros t d H. inversion H; subst. exists []. now rewrite !app_nil_r.
  - unfold decoder_decode. cbn [d_buf d_normalize d_cr]. destruct (utf8_inc buf c false) as [[t r]|]; [|split; [reflexivity|discriminate]].
    pose proof (nl_inc_step t0 t) as S. destruct (nl_state t0) as [a p] eqn:Ea. cbn [snd fst].
    destruct (nl_inc p t false) as [b q] eqn:Eb.
    specialize (IH r (t0 ++ t)). rewrite S in IH. cbn [snd fst] in IH. destruct IH as (IH1 & IH2).
    split.
    + rewrite IH1. destruct (feed {| d_buf := r; d_cr := false; d_normalize := false |} chunks) as [[t' d']|] eqn:EF; [|reflexivity].
      destruct (IH2 t' d' eq_refl) as (more & HM). rewrite <- app_assoc in *.
      f_equal. f_equal. rewrite HM.
      rewrite skipn_app, skipn_all, Nat.sub_diag. cbn [skipn app].
      rewrite <- app_assoc. rewrite skipn_app, skipn_all, Nat.sub_diag. reflexivity.
    + intros t' d' H. destruct (feed {| d_buf := r; d_cr := false; d_normalize := false |} chunks) as [[t2 d2]|] eqn:EF; [|discriminate H].
      inversion H; subst. destruct (IH2 t2 d' eq_refl) as (more & HM). exists (b ++ more).
      rewrite app_assoc, HM. now rewrite app_assoc.
Qed.

Lemma feed_all_normalize chunks : feed_all true chunks =
  match utf8_decode (List.concat chunks) with None => None | Some t => Some (nl_replace t) end.
Proof.
  rewrite <- feed_all_plain. unfold feed_all, make_decoder.
  destruct (feed_normalize chunks [] []) as (H & _). cbn [nl_state ends_cr rev nl_replace snd fst List.length skipn app] in H.
  rewrite H. destruct (feed {| d_buf := []; d_cr := false; d_normalize := false |} chunks) as [[t d]|] eqn:EF; [|reflexivity].
  assert (Dd : d_cr d = false /\ d_normalize d = false).
  { rewrite feed_plain in EF. destruct chunks; [inversion EF; auto|].
    destruct (utf8_decode_part ([] ++ List.concat (b :: chunks)) false) as [[? ?]|]; [|discriminate EF]. inversion EF; auto. }
  destruct Dd as (D1 & D2). unfold decoder_decode. cbn [d_buf d_cr d_normalize]. rewrite D2.
  destruct (utf8_inc (d_buf d) [] true) as [[t' r]|]; [|reflexivity].
  pose proof (nl_inc_final t t') as F. cbn [app] in *. destruct (nl_state t) as [a p]. cbn [snd fst] in *.
  destruct (nl_inc p t' true) as [x q]. cbn [fst] in F. now rewrite F.
Qed.

(** * Lines and UTF-8: a newline byte is never inside a character. *)
Lemma encode_cp_bytes c b : encode_cp c = Some b -> b = [c] \/ Forall (fun x => 128 <= x) b.
Proof.
  unfold encode_cp. intro H.
  repeat match type of H with (if ?t then _ else _) = _ => destruct t eqn:?E end; try discriminate H; inv_some H; rng; auto;
  right; repeat constructor; lia.
Qed.
Lemma cut_high r : cut_surrogate r = true -> Forall (fun x => 128 <= x) r.
Proof.
  destruct r as [|b [|x [|y d]]]; try discriminate. cbn [cut_surrogate]. intros H. apply andb_prop in H. destruct H as [H1 H2].
  apply Z.eqb_eq in H1. rng. repeat apply Forall_cons; try apply Forall_nil; lia.
Qed.
Lemma incomplete_high r : decode_step r = DMore -> Forall (fun x => 128 <= x) r.
Proof.
  intro H. apply step_more in H. destruct H as [->|(c & b & more & E1 & E2 & E3)]; [constructor|].
  apply encode_cp_bytes in E1. destruct E1 as [->|E1].
  - destruct r as [|x [|y r]]; [constructor| |]; destruct more; try congruence; discriminate E2.
  - subst b. apply Forall_app in E1. tauto.
Qed.
Lemma utf8_encode_app a b : utf8_encode (a ++ b) =
  match utf8_encode a, utf8_encode b with Some x, Some y => Some (x ++ y) | _, _ => None end.
Proof.
  induction a as [|c a IH]; cbn.
  - destruct (utf8_encode b); reflexivity.
  - destruct (encode_cp c); [|reflexivity]. rewrite IH. destruct (utf8_encode a); [|reflexivity].
    destruct (utf8_encode b); [|reflexivity]. now rewrite app_assoc.
Qed.
Lemma decode_nl l r : utf8_decode ((l ++ [10]) ++ r) =
  match utf8_decode (l ++ [10]), utf8_decode r with Some a, Some b => Some (a ++ b) | _, _ => None end.
Proof.
  unfold utf8_decode. rewrite (part_app (l ++ [10]) r true).
  pose proof (part_app (l ++ [10]) [] true) as P. rewrite (app_nil_r (l ++ [10])) in P. rewrite P.
  destruct (utf8_decode_part (l ++ [10]) false) as [[t1 r1]|] eqn:E; [|reflexivity].
  assert (r1 = []).
  { apply part_spec in E. destruct E as (b & _ & B & [C|[_ C]]); [exact C|].
    assert (C1 : Forall (fun x => 128 <= x) r1).
    { destruct C as [C|C]; [apply incomplete_high; exact C|apply cut_high; exact C]. } clear C. rename C1 into C.
    destruct r1 as [|x r1] using rev_ind; [reflexivity|]. exfalso.
    rewrite app_assoc in B. apply app_inj_tail in B. destruct B as (_ & <-).
    apply Forall_app in C. destruct C as (_ & C). inversion C. lia. }
  subst r1. cbn [app]. destruct (utf8_decode_part [] true) as [[t0 r0]|] eqn:E0; [|discriminate E0].
  cbv in E0. inversion E0; subst. rewrite app_nil_r.
  destruct (utf8_decode_part r true) as [[t2 r2]|]; reflexivity.
Qed.
