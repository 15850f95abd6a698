(** Proofs for C123-C126. *)
From Verif Require Import Base Utf8Model Utf8Spec Utf8Proofs EncodingModel EncodingSpec.
Open Scope Z_scope.

(** * UTF-8: the ill-formed sequence *)
Lemma bad_cases d : decode_step d = DBad -> exists n, bad_len d = S n
  /\ (S n <= List.length d)%nat /\ (S n <= 3)%nat
  /\ (n = 0%nat \/ decode_step (firstn (S n) d) = DMore)
  /\ decode_step (firstn (S (S n)) d) = DBad
  /\ (forall x, bad_len (d ++ x) = bad_len d)
  /\ Forall (fun b => 127 < b \/ b < 0) (firstn (S n) d).
Proof.
  intros H. destruct d as [|b d]; [discriminate H|].
  cbn [decode_step] in H. destruct (in_range 0 127 b) eqn:R1; [discriminate H|].
  assert (Hb : 127 < b \/ b < 0) by (rng; lia).
  destruct (in_range 194 223 b) eqn:R2; [|destruct (in_range 224 239 b) eqn:R3; [|destruct (in_range 240 244 b) eqn:R4]].
  - destruct d as [|x d]; [discriminate H|]. destruct (second_ok b x) eqn:Es; [discriminate H|].
    assert (R3 : in_range 224 239 b = false) by (apply in_range_false; rng; lia).
    assert (R4 : in_range 240 244 b = false) by (apply in_range_false; rng; lia).
    exists 0%nat. cbn [bad_len app firstn decode_step List.length]. rewrite R1, R2, R3, R4, Es.
    repeat split; auto; lia.
  - destruct d as [|x d]; [discriminate H|]. destruct (second_ok b x) eqn:Es.
    + destruct d as [|y d]; [discriminate H|]. cbn [andb] in H. destruct (cont y) eqn:Ec; [discriminate H|].
      exists 1%nat. cbn [bad_len app firstn decode_step List.length]. rewrite R1, R2, R3, Es, Ec. cbn [andb].
      repeat split; auto; try lia. apply second_ok_iff in Es. repeat apply Forall_cons; try apply Forall_nil; lia.
    + exists 0%nat. cbn [bad_len app firstn decode_step List.length]. rewrite R1, R2, R3, Es.
      repeat split; auto; lia.
  - destruct d as [|x d]; [discriminate H|]. destruct (second_ok b x) eqn:Es.
    + destruct d as [|y d]; [discriminate H|]. cbn [andb] in H. destruct (cont y) eqn:Ec.
      * destruct d as [|z d]; [discriminate H|]. cbn [andb] in H. destruct (cont z) eqn:Ez; [discriminate H|].
        exists 2%nat. cbn [bad_len app firstn decode_step List.length]. rewrite R1, R2, R3, R4, Es, Ec, Ez. cbn [andb].
        repeat split; auto; try lia. apply second_ok_iff in Es. unfold cont in *. rng. repeat apply Forall_cons; try apply Forall_nil; lia.
      * exists 1%nat. cbn [bad_len app firstn decode_step List.length]. rewrite R1, R2, R3, R4, Es, Ec. cbn [andb].
        repeat split; auto; try lia. apply second_ok_iff in Es. repeat apply Forall_cons; try apply Forall_nil; lia.
    + exists 0%nat. cbn [bad_len app firstn decode_step List.length]. rewrite R1, R2, R3, R4, Es.
      repeat split; auto; try lia.
  - exists 0%nat.
    assert (B1 : forall l, bad_len (b :: l) = 1%nat) by (intros [|x l]; cbn [bad_len]; rewrite ?R3, ?R4; reflexivity).
    cbn [app]. rewrite B1. split; [reflexivity|]. split; [cbn; lia|]. split; [lia|]. split; [auto|]. split.
    + destruct d as [|x d]; cbn [firstn decode_step]; rewrite R1, R2, R3, R4; reflexivity.
    + split; [intros x; apply B1|]. cbn [firstn]. auto.
Qed.

(** * The steps of every codec *)
Lemma unit_bytes u : exists lo hi, bytes16 u = [lo; hi] /\ unit16 lo hi = u.
Proof. exists (u mod 256), (u / 256). split; [reflexivity|]. unfold unit16. pose proof (Z.div_mod u 256). lia. Qed.
Lemma bytes_unit lo hi : 0 <= lo <= 255 -> 0 <= hi <= 255 -> bytes16 (unit16 lo hi) = [lo; hi].
Proof.
  intros Hl Hh. unfold bytes16, unit16. rewrite (Z.mul_comm 256 hi). rewrite Z.mod_add, Z.div_add by lia.
  rewrite Z.mod_small, Z.div_small by lia. reflexivity.
Qed.
Lemma split_pair u v : 55296 <= u <= 56319 -> 56320 <= v <= 57343 ->
  high16 (pair16 u v) = u /\ low16 (pair16 u v) = v /\ 65536 <= pair16 u v <= 1114111.
Proof.
  intros Hu Hv. unfold high16, low16, pair16.
  replace (65536 + (u - 55296) * 1024 + (v - 56320) - 65536) with ((v - 56320) + (u - 55296) * 1024) by lia.
  rewrite Z.div_add, Z.mod_add by lia. rewrite Z.mod_small, Z.div_small by lia. lia.
Qed.
Lemma pair_split c : 65536 <= c <= 1114111 ->
  pair16 (high16 c) (low16 c) = c /\ 55296 <= high16 c <= 56319 /\ 56320 <= low16 c <= 57343.
Proof.
  intros H. unfold pair16, high16, low16.
  assert (Hd : c - 65536 = 1024 * ((c - 65536) / 1024) + (c - 65536) mod 1024) by (apply Z.div_mod; lia).
  assert (Hm : 0 <= (c - 65536) mod 1024 < 1024) by (apply Z.mod_pos_bound; lia). lia.
Qed.
Lemma unit_range lo hi : 0 <= lo <= 255 -> 0 <= hi <= 255 -> 0 <= unit16 lo hi <= 65535.
Proof. unfold unit16. lia. Qed.
Local Opaque unit16 pair16 high16 low16 bytes16.
Lemma step_char k d c r : step k d = SChar c r ->
  (exists b, b <> [] /\ d = b ++ r) /\ forall x, step k (d ++ x) = SChar c (r ++ x).
Proof.
  destruct k; cbn [step].
  - unfold utf8_step. intros H. destruct (decode_step d) as [c' r'| |] eqn:E; try discriminate H. injection H as -> ->.
    split.
    + destruct (dec_enc _ _ _ E) as (b & E1 & E2). exists b. split; [|exact E2]. eapply encode_cp_nonempty; exact E1.
    + intros x. rewrite (step_char_app _ _ _ x E). reflexivity.
  - destruct d as [|b d]; [discriminate|]. intros H. injection H as -> ->. split; [|reflexivity].
    exists [c]. split; [discriminate|reflexivity].
  - destruct d as [|b d]; [discriminate|]. cbn [app]. destruct (in_range 0 127 b); [|discriminate].
    intros H. injection H as -> ->. split; [|reflexivity]. exists [c]. split; [discriminate|reflexivity].
  - unfold utf16_step. destruct d as [|lo [|hi d]]; try discriminate. cbv zeta.
    destruct (in_range 55296 56319 (unit16 lo hi)) eqn:R1.
    + destruct d as [|lo2 [|hi2 d]]; try discriminate. destruct (in_range 56320 57343 (unit16 lo2 hi2)) eqn:R2; [|discriminate].
      intros H. injection H as <- ->. split.
      * exists [lo; hi; lo2; hi2]. split; [discriminate|reflexivity].
      * intros x. cbn [app]. rewrite R1, R2. reflexivity.
    + destruct (in_range 56320 57343 (unit16 lo hi)) eqn:R2; [discriminate|]. intros H. injection H as <- ->.
      split; [exists [lo; hi]; split; [discriminate|reflexivity]|]. intros x. cbn [app]. rewrite R1, R2. reflexivity.
Qed.

Lemma step_bad k d seg r : step k d = SBad seg r ->
  seg <> [] /\ d = seg ++ r /\ forall x, step k (d ++ x) = SBad seg (r ++ x).
Proof.
  destruct k; cbn [step].
  - unfold utf8_step. intros H. destruct (decode_step d) as [c' r'| |] eqn:E; try discriminate H.
    injection H as <- <-. destruct (bad_cases d E) as (n & E1 & E2 & E3 & E4 & E5 & E6 & E7). repeat split.
    + rewrite E1. destruct d; [discriminate E|discriminate].
    + symmetry. apply firstn_skipn.
    + intros x. rewrite (step_bad_app _ x E), E6, E1. rewrite firstn_app, skipn_app.
      replace (S n - List.length d)%nat with 0%nat by lia. cbn [firstn skipn]. rewrite app_nil_r. reflexivity.
  - destruct d; discriminate.
  - destruct d as [|b d]; [discriminate|]. cbn [app]. destruct (in_range 0 127 b); [discriminate|].
    intros H. injection H as <- <-. repeat split. discriminate.
  - unfold utf16_step. destruct d as [|lo [|hi d]]; try discriminate. cbv zeta.
    destruct (in_range 55296 56319 (unit16 lo hi)) eqn:R1.
    + destruct d as [|lo2 [|hi2 d]]; try discriminate. destruct (in_range 56320 57343 (unit16 lo2 hi2)) eqn:R2; [discriminate|].
      intros H. injection H as <- <-. repeat split; [discriminate|]. intros x. cbn [app]. rewrite R1, R2. reflexivity.
    + destruct (in_range 56320 57343 (unit16 lo hi)) eqn:R2; [|discriminate]. intros H. injection H as <- <-.
      repeat split; [discriminate|]. intros x. cbn [app]. rewrite R1, R2. reflexivity.
Qed.

Lemma high_bytes_split n : forall d, exists r, d = high_bytes n d ++ r.
Proof.
  induction n as [|n IH]; intros d; cbn [high_bytes]; [exists d; reflexivity|].
  destruct d as [|b d]; [exists []; reflexivity|]. destruct (128 <=? b); [|exists (b :: d); reflexivity].
  destruct (IH d) as (r & E). exists r. cbn [app]. rewrite <- E. reflexivity.
Qed.

(** A handler consumes something and gives back the rest. *)
Lemma handle_back e seg t back : handle e seg = Some (t, back) -> seg <> [] ->
  exists pre, pre <> [] /\ seg = pre ++ back.
Proof.
  intros H N. destruct e; cbn [handle] in H; try discriminate H.
  - injection H as <- <-. exists seg. rewrite app_nil_r. auto.
  - injection H as <- <-. exists seg. rewrite app_nil_r. auto.
  - destruct (high_bytes_split 4 seg) as (r & E). remember (high_bytes 4 seg) as hb eqn:Eh. clear Eh.
    assert (Eq : skipn (List.length hb) seg = r) by (rewrite E, skipn_app, skipn_all, Nat.sub_diag; reflexivity).
    destruct hb as [|h hs]; [discriminate H|].
    assert (Hb : back = skipn (List.length (h :: hs)) seg) by congruence.
    exists (h :: hs). split; [discriminate|]. rewrite Hb, Eq. exact E.
Qed.

(** * The loop *)
Definition cont_with (t0 : text) (m : option (text * bytes)) : option (text * bytes) :=
  match m with Some (t, rest) => Some (t0 ++ t, rest) | None => None end.

Lemma loop_step k e f d fin : dec_loop k e (S f) d fin =
  match d with
  | [] => Some ([], [])
  | _ => match step k d with
         | SChar c r => cont_with [c] (dec_loop k e f r fin)
         | SMore => if fin then match handle e d with Some (t0, back) => cont_with t0 (dec_loop k e f back fin) | None => None end
                    else Some ([], d)
         | SBad seg r => if kept k d fin then Some ([], d) else
             match handle e seg with Some (t0, back) => cont_with t0 (dec_loop k e f (back ++ r) fin) | None => None end
         end
  end.
Proof. destruct d; reflexivity. Qed.

Lemma shorter_char k d c r : step k d = SChar c r -> (List.length r < List.length d)%nat.
Proof. intros H. apply step_char in H. destruct H as [(b & N & ->) _]. rewrite app_length. destruct b; [congruence|cbn; lia]. Qed.
Lemma shorter_bad k e d seg r t back : step k d = SBad seg r -> handle e seg = Some (t, back) ->
  (List.length (back ++ r) < List.length d)%nat.
Proof.
  intros H H1. apply step_bad in H. destruct H as (N & -> & _). apply handle_back in H1; [|exact N].
  destruct H1 as (pre & Np & ->). rewrite !app_length. destruct pre; [congruence|cbn; lia].
Qed.
Lemma shorter_more e d t back : d <> [] -> handle e d = Some (t, back) -> (List.length back < List.length d)%nat.
Proof.
  intros N H1. apply handle_back in H1; [|exact N]. destruct H1 as (pre & Np & ->). rewrite app_length. destruct pre; [congruence|cbn; lia].
Qed.

Lemma dec_fuel k e n : forall f d fin, (List.length d <= n)%nat -> (n <= f)%nat -> dec_loop k e f d fin = dec_loop k e n d fin.
Proof.
  induction n as [|n IH]; intros f d fin H1 H2.
  - destruct d; [|cbn in H1; lia]. destruct f; reflexivity.
  - destruct f as [|f]; [lia|]. rewrite !loop_step. destruct d as [|b d0] eqn:Ed; [reflexivity|]. rewrite <- Ed in *.
    assert (N : d <> []) by (rewrite Ed; discriminate). clear Ed.
    destruct (step k d) as [c r| |seg r] eqn:E.
    + apply shorter_char in E. rewrite (IH f); [reflexivity|lia|lia].
    + destruct fin; [|reflexivity]. destruct (handle e d) as [[t0 back]|] eqn:Eh; [|reflexivity].
      apply shorter_more in Eh; [|exact N]. rewrite (IH f); [reflexivity|lia|lia].
    + destruct (kept k d fin); [reflexivity|]. destruct (handle e seg) as [[t0 back]|] eqn:Eh; [|reflexivity].
      pose proof (shorter_bad _ _ _ _ _ _ _ E Eh). rewrite (IH f); [reflexivity|lia|lia].
Qed.

Lemma dec_step k e d fin : dec_part k e d fin =
  match d with
  | [] => Some ([], [])
  | _ => match step k d with
         | SChar c r => cont_with [c] (dec_part k e r fin)
         | SMore => if fin then match handle e d with Some (t0, back) => cont_with t0 (dec_part k e back fin) | None => None end
                    else Some ([], d)
         | SBad seg r => if kept k d fin then Some ([], d) else
             match handle e seg with Some (t0, back) => cont_with t0 (dec_part k e (back ++ r) fin) | None => None end
         end
  end.
Proof.
  unfold dec_part. destruct d as [|b d0] eqn:Ed; [reflexivity|]. rewrite <- Ed in *.
  assert (N : d <> []) by (rewrite Ed; discriminate). replace (List.length d) with (S (List.length d0)) by (rewrite Ed; reflexivity).
  rewrite loop_step. assert (L : List.length d = S (List.length d0)) by (rewrite Ed; reflexivity). rewrite Ed at 1. clear Ed.
  destruct (step k d) as [c r| |seg r] eqn:E.
  - apply shorter_char in E. rewrite (dec_fuel k e (List.length r) (List.length d0)); [reflexivity|lia|lia].
  - destruct fin; [|reflexivity]. destruct (handle e d) as [[t0 back]|] eqn:Eh; [|reflexivity].
    apply shorter_more in Eh; [|exact N]. rewrite (dec_fuel k e (List.length back) (List.length d0)); [reflexivity|lia|lia].
  - destruct (kept k d fin); [reflexivity|]. destruct (handle e seg) as [[t0 back]|] eqn:Eh; [|reflexivity].
    pose proof (shorter_bad _ _ _ _ _ _ _ E Eh). rewrite (dec_fuel k e (List.length (back ++ r)) (List.length d0)); [reflexivity|lia|lia].
Qed.

Lemma cont_with_app t0 t1 m : cont_with t0 (cont_with t1 m) = cont_with (t0 ++ t1) m.
Proof. destruct m as [[t r]|]; [|reflexivity]. cbn. rewrite app_assoc. reflexivity. Qed.
Lemma cont_with_nil m : cont_with [] m = m.
Proof. destruct m as [[t r]|]; reflexivity. Qed.

Lemma dec_nil k e fin : dec_part k e [] fin = Some ([], []).
Proof. reflexivity. Qed.
Lemma dec_ne k e d fin : d <> [] -> dec_part k e d fin =
  match step k d with
  | SChar c r => cont_with [c] (dec_part k e r fin)
  | SMore => if fin then match handle e d with Some (t0, back) => cont_with t0 (dec_part k e back fin) | None => None end
             else Some ([], d)
  | SBad seg r => if kept k d fin then Some ([], d) else
             match handle e seg with Some (t0, back) => cont_with t0 (dec_part k e (back ++ r) fin) | None => None end
  end.
Proof. intros N. rewrite dec_step. destruct d; [congruence|reflexivity]. Qed.

Lemma kept_app k d x fin : kept k d false = false -> (exists seg r, step k d = SBad seg r) -> kept k (d ++ x) fin = false.
Proof.
  destruct k; try reflexivity. cbn [kept negb andb]. intros H (seg & r & E). apply andb_false_intro2.
  destruct x as [|y x]; [rewrite app_nil_r; exact H|].
  destruct d as [|b [|z d]]; [discriminate E| |destruct d; reflexivity]. destruct x; [|reflexivity].
  cbn [app cut_surrogate]. apply andb_false_intro1. destruct (Z.eqb_spec b 237) as [->|]; [discriminate E|reflexivity].
Qed.
Lemma kept_bad k d fin : kept k d fin = true -> exists seg r, step k d = SBad seg r.
Proof.
  destruct k; cbn [kept]; try discriminate. intros H. apply andb_prop in H. destruct H as [_ H]. apply cut_bad in H.
  cbn [step]. unfold utf8_step. rewrite H. eauto.
Qed.
Lemma kept_final k d : kept k d true = false.
Proof. destruct k; reflexivity. Qed.

Lemma dec_app k e d1 : forall d2 fin, dec_part k e (d1 ++ d2) fin =
  match dec_part k e d1 false with
  | None => None
  | Some (t1, r1) => cont_with t1 (dec_part k e (r1 ++ d2) fin)
  end.
Proof.
  remember (List.length d1) as n. revert d1 Heqn. induction n as [n IH] using lt_wf_ind. intros d1 -> d2 fin.
  assert (N : d1 = [] \/ d1 <> []) by (destruct d1; [left; reflexivity|right; discriminate]).
  destruct N as [->|N]; [rewrite dec_nil, cont_with_nil; reflexivity|].
  assert (N2 : d1 ++ d2 <> []) by (destruct d1; [congruence|discriminate]).
  rewrite (dec_ne k e d1 false N).
  destruct (step k d1) as [c r| |seg r] eqn:E.
  - pose proof (shorter_char _ _ _ _ E). apply step_char in E. destruct E as [_ E].
    rewrite (dec_ne k e _ fin N2), E.
    rewrite (IH (List.length r) ltac:(lia) r eq_refl d2 fin).
    destruct (dec_part k e r false) as [[t1 r1]|]; [|reflexivity]. cbn [cont_with]. rewrite cont_with_app. reflexivity.
  - rewrite cont_with_nil. reflexivity.
  - pose proof E as E0. apply step_bad in E. destruct E as (Ns & Es & E).
    destruct (kept k d1 false) eqn:Kd; [rewrite cont_with_nil; reflexivity|].
    rewrite (dec_ne k e _ fin N2), E, (kept_app k d1 d2 fin Kd (ex_intro _ _ (ex_intro _ _ E0))).
    destruct (handle e seg) as [[t0 back]|] eqn:Eh; [|reflexivity].
    pose proof (shorter_bad _ _ _ _ _ _ _ E0 Eh). rewrite app_assoc.
    rewrite (IH _ H (back ++ r) eq_refl d2 fin).
    destruct (dec_part k e (back ++ r) false) as [[t1 r1]|]; [|reflexivity]. cbn [cont_with]. rewrite cont_with_app. reflexivity.
Qed.

(** What is not consumed: nothing, or the beginning of a character. *)
Lemma dec_rest k e d : forall fin t r, dec_part k e d fin = Some (t, r) ->
  (r = [] \/ fin = false /\ (step k r = SMore \/ kept k r false = true)) /\ exists pre, d = pre ++ r.
Proof.
  remember (List.length d) as n. revert d Heqn. induction n as [n IH] using lt_wf_ind. intros d -> fin t r H.
  rewrite dec_step in H. destruct d as [|b d0] eqn:Ed; [injection H as <- <-; split; [auto|exists []; reflexivity]|].
  rewrite <- Ed in *. assert (N : d <> []) by (rewrite Ed; discriminate). clear Ed.
  destruct (step k d) as [c r0| |seg r0] eqn:E.
  - pose proof (shorter_char _ _ _ _ E). apply step_char in E. destruct E as [(b0 & _ & ->) _].
    destruct (dec_part k e r0 fin) as [[t1 r1]|] eqn:E1; [|discriminate H]. injection H as <- <-.
    destruct (IH _ H0 r0 eq_refl fin t1 r1 E1) as [A (pre & B)]. split; [exact A|]. exists (b0 ++ pre). rewrite B, app_assoc. reflexivity.
  - destruct fin; [|injection H as <- <-; split; [auto 6|exists []; reflexivity]].
    destruct (handle e d) as [[t0 back]|] eqn:Eh; [|discriminate H]. pose proof (shorter_more _ _ _ _ N Eh).
    apply handle_back in Eh; [|exact N]. destruct Eh as (p & _ & ->).
    destruct (dec_part k e back true) as [[t1 r1]|] eqn:E1; [|discriminate H]. injection H as <- <-.
    destruct (IH _ H0 back eq_refl true t1 r1 E1) as [A (pre & B)]. split; [exact A|]. exists (p ++ pre). rewrite B, app_assoc. reflexivity.
  - destruct (kept k d fin) eqn:Kd.
    { injection H as <- <-. split; [|exists []; reflexivity]. right. destruct fin; [rewrite kept_final in Kd; discriminate Kd|auto]. }
    destruct (handle e seg) as [[t0 back]|] eqn:Eh; [|discriminate H].
    pose proof (shorter_bad _ _ _ _ _ _ _ E Eh). apply step_bad in E. destruct E as (Ns & -> & _).
    apply handle_back in Eh; [|exact Ns]. destruct Eh as (p & _ & ->).
    destruct (dec_part k e (back ++ r0) fin) as [[t1 r1]|] eqn:E1; [|discriminate H]. injection H as <- <-.
    destruct (IH _ H0 (back ++ r0) eq_refl fin t1 r1 E1) as [A (pre & B)]. split; [exact A|].
    exists (p ++ pre). rewrite <- !app_assoc, <- B. reflexivity.
Qed.

Lemma step_nil k : step k [] = SMore.
Proof. destruct k; reflexivity. Qed.

Lemma dec_idem k e d fin t r : dec_part k e d fin = Some (t, r) -> dec_part k e r false = Some ([], r).
Proof.
  intros H. apply dec_rest in H. destruct H as [[->|[_ H]] _]; [reflexivity|]. rewrite dec_step.
  destruct r as [|x r]; [reflexivity|]. destruct H as [H|H]; [rewrite H; reflexivity|].
  destruct (kept_bad _ _ _ H) as (seg & q & E). rewrite E, H. reflexivity.
Qed.

(** * Chunks *)
Definition plain (buf : bytes) : idec := {| i_buf := buf; i_cr := false; i_normalize := false |}.

Lemma ifeed_plain k e chunks : forall buf, dec_part k e buf false = Some ([], buf) ->
  ifeed k e (plain buf) chunks =
  match dec_part k e (buf ++ List.concat chunks) false with
  | None => None
  | Some (t, r) => Some (t, plain r)
  end.
Proof.
  induction chunks as [|c cs IH]; intros buf Hb; cbn [ifeed List.concat].
  - rewrite app_nil_r, Hb. reflexivity.
  - unfold idec_decode. cbn [i_buf i_normalize i_cr plain]. rewrite app_assoc, (dec_app k e (buf ++ c)).
    destruct (dec_part k e (buf ++ c) false) as [[t r]|] eqn:E; [|reflexivity].
    change {| i_buf := r; i_cr := false; i_normalize := false |} with (plain r).
    rewrite IH by (eapply dec_idem; exact E).
    destruct (dec_part k e (r ++ List.concat cs) false) as [[t' r']|]; reflexivity.
Qed.

Lemma ifeed_all_plain k e chunks : ifeed_all k e false chunks = decode k e (List.concat chunks).
Proof.
  unfold ifeed_all, decode. change (make_idec false) with (plain []). rewrite ifeed_plain by reflexivity. cbn [app].
  rewrite <- (app_nil_r (List.concat chunks)) at 2. rewrite dec_app.
  destruct (dec_part k e (List.concat chunks) false) as [[t r]|]; [|reflexivity].
  unfold idec_decode. cbn [i_buf i_normalize i_cr plain].
  destruct (dec_part k e (r ++ []) true) as [[t' r']|]; reflexivity.
Qed.

Lemma ifeed_normalize k e chunks : forall buf t0,
  ifeed k e {| i_buf := buf; i_cr := snd (nl_state t0); i_normalize := true |} chunks
  = match ifeed k e (plain buf) chunks with
    | None => None
    | Some (t, d) => Some (skipn (List.length (fst (nl_state t0))) (fst (nl_state (t0 ++ t))),
                           {| i_buf := i_buf d; i_cr := snd (nl_state (t0 ++ t)); i_normalize := true |})
    end
  /\ (forall t d, ifeed k e (plain buf) chunks = Some (t, d) ->
        exists more, fst (nl_state (t0 ++ t)) = fst (nl_state t0) ++ more).
Proof.
  induction chunks as [|c chunks IH]; intros buf t0; cbn [ifeed].
  - rewrite app_nil_r. split.
    + rewrite skipn_all. reflexivity.
    + intros t d H. inversion H; subst. exists []. now rewrite !app_nil_r.
  - unfold idec_decode. cbn [i_buf i_normalize i_cr plain].
    destruct (dec_part k e (buf ++ c) false) as [[t r]|]; [|split; [reflexivity|discriminate]].
    pose proof (nl_inc_step t0 t) as S0. destruct (nl_state t0) as [a p] eqn:Ea. cbn [snd fst].
    destruct (nl_inc p t false) as [b q] eqn:Eb.
    specialize (IH r (t0 ++ t)). rewrite S0 in IH. cbn [snd fst] in IH. destruct IH as (IH1 & IH2).
    change {| i_buf := r; i_cr := false; i_normalize := false |} with (plain r).
    split.
    + rewrite IH1. destruct (ifeed k e (plain r) chunks) as [[t' d']|] eqn:EF; [|reflexivity].
      destruct (IH2 t' d' eq_refl) as (more & HM). rewrite <- app_assoc in *.
      f_equal. f_equal. rewrite HM.
      rewrite skipn_app, skipn_all, Nat.sub_diag. cbn [skipn app].
      rewrite <- app_assoc. rewrite skipn_app, skipn_all, Nat.sub_diag. reflexivity.
    + intros t' d' H. destruct (ifeed k e (plain r) chunks) as [[t2 d2]|] eqn:EF; [|discriminate H].
      inversion H; subst. destruct (IH2 t2 d' eq_refl) as (more & HM). exists (b ++ more).
      rewrite app_assoc, HM. now rewrite app_assoc.
Qed.

Lemma ifeed_all_normalize k e chunks : ifeed_all k e true chunks =
  match decode k e (List.concat chunks) with None => None | Some t => Some (nl_replace t) end.
Proof.
  rewrite <- ifeed_all_plain. unfold ifeed_all.
  change (make_idec false) with (plain []).
  change (make_idec true) with {| i_buf := []; i_cr := snd (nl_state []); i_normalize := true |}.
  destruct (ifeed_normalize k e chunks [] []) as (H & _). rewrite H. clear H.
  cbn [nl_state ends_cr rev nl_replace snd fst List.length skipn app].
  destruct (ifeed k e (plain []) chunks) as [[t d]|] eqn:EF; [|reflexivity].
  assert (Dd : d = plain (i_buf d)).
  { rewrite ifeed_plain in EF by reflexivity.
    destruct (dec_part k e ([] ++ List.concat chunks) false) as [[? ?]|]; [|discriminate EF]. inversion EF; reflexivity. }
  rewrite Dd. unfold idec_decode. cbn [i_buf i_cr i_normalize plain].
  destruct (dec_part k e (i_buf d ++ []) true) as [[t' r]|]; [|reflexivity].
  pose proof (nl_inc_final t t') as F. fold (nl_state t). destruct (nl_state t) as [a p]. cbn [snd fst] in *.
  destruct (nl_inc p t' true) as [x q]. cbn [fst] in F. now rewrite F.
Qed.

(** * Characters *)
Lemma raw_step k c b r : raw k c = Some b -> step k (b ++ r) = SChar c r.
Proof.
  destruct k; cbn [raw step].
  - intros H. unfold utf8_step. rewrite (enc_dec c b r H). reflexivity.
  - destruct (in_range 0 255 c); [|discriminate]. intros H. injection H as <-. reflexivity.
  - destruct (in_range 0 127 c) eqn:R; [|discriminate]. intros H. injection H as <-. cbn [app]. rewrite R. reflexivity.
  - destruct (in_range 55296 57343 c) eqn:R1; [discriminate|]. destruct (in_range 0 65535 c) eqn:R2.
    + intros H. injection H as <-. destruct (unit_bytes c) as (lo & hi & -> & E). cbn [app utf16_step]. cbv zeta. rewrite E. rng.
      do 2 decide_range. reflexivity.
    + destruct (in_range 65536 1114111 c) eqn:R3; [|discriminate]. intros H. injection H as <-. rng.
      destruct (pair_split c) as (P1 & P2 & P3); [lia|].
      destruct (unit_bytes (high16 c)) as (lo & hi & -> & E). destruct (unit_bytes (low16 c)) as (lo2 & hi2 & -> & E2).
      cbn [app utf16_step]. cbv zeta. rewrite E, E2. do 2 decide_range. rewrite P1. reflexivity.
Qed.

Lemma step_raw k d c r : is_bytes d -> step k d = SChar c r -> exists b, raw k c = Some b /\ d = b ++ r.
Proof.
  intros B. destruct k; cbn [raw step].
  - unfold utf8_step. destruct (decode_step d) as [c' r'| |] eqn:E; try discriminate. intros H. injection H as -> ->.
    apply dec_enc in E. exact E.
  - destruct d as [|x d]; [discriminate|]. intros H. injection H as -> ->. inversion B; subst.
    decide_range. exists [c]. auto.
  - destruct d as [|x d]; [discriminate|]. destruct (in_range 0 127 x) eqn:R; [|discriminate]. intros H. injection H as -> ->.
    rewrite R. exists [c]. auto.
  - unfold utf16_step. destruct d as [|lo [|hi d]]; try discriminate. cbv zeta.
    inversion B as [|? ? B1 B2]; subst. inversion B2 as [|? ? B3 B4]; subst.
    destruct (in_range 55296 56319 (unit16 lo hi)) eqn:R1.
    + destruct d as [|lo2 [|hi2 d]]; try discriminate. destruct (in_range 56320 57343 (unit16 lo2 hi2)) eqn:R2; [|discriminate].
      inversion B4 as [|? ? B5 B6]; subst. inversion B6 as [|? ? B7 B8]; subst.
      intros H. injection H as <- <-. rng.
      destruct (split_pair (unit16 lo hi) (unit16 lo2 hi2)) as (P1 & P2 & P3); [lia|lia|].
      do 3 decide_range. rewrite P1, P2, (bytes_unit lo hi B1 B3), (bytes_unit lo2 hi2 B5 B7).
      exists [lo; hi; lo2; hi2]. auto.
    + destruct (in_range 56320 57343 (unit16 lo hi)) eqn:R2; [discriminate|]. intros H. injection H as <- <-. rng.
      pose proof (unit_range lo hi B1 B3). do 2 decide_range. rewrite (bytes_unit lo hi B1 B3).
      exists [lo; hi]. auto.
Qed.

Lemma raw_nonempty k c b : raw k c = Some b -> b <> [].
Proof. intros H ->. pose proof (raw_step k c [] [] H) as E. cbn [app] in E. rewrite step_nil in E. discriminate E. Qed.

Lemma decode_cons k e c b r : raw k c = Some b -> decode k e (b ++ r) = match decode k e r with Some t => Some (c :: t) | None => None end.
Proof.
  intros H. unfold decode. rewrite dec_step, (raw_step k c b r H). pose proof (raw_nonempty k c b H).
  destruct (b ++ r) eqn:E; [destruct b; [congruence|discriminate E]|].
  destruct (dec_part k e r true) as [[t q]|]; reflexivity.
Qed.

Lemma decode_encode k e t d : encode k Strict t = Some d -> decode k e d = Some t.
Proof.
  revert d. induction t as [|c t IH]; intros d H; cbn [encode] in H.
  - injection H as <-. reflexivity.
  - unfold encode_one in H. destruct (raw k c) as [b|] eqn:E; [|discriminate H].
    destruct (encode k Strict t) as [d'|]; [|discriminate H]. injection H as <-.
    rewrite (decode_cons k e c b d' E), (IH d' eq_refl). reflexivity.
Qed.

Lemma is_bytes_app a b : is_bytes (a ++ b) <-> is_bytes a /\ is_bytes b.
Proof. apply Forall_app. Qed.

Lemma encode_decode k d : is_bytes d -> forall t, decode k Strict d = Some t -> encode k Strict t = Some d.
Proof.
  remember (List.length d) as n. revert d Heqn. induction n as [n IH] using lt_wf_ind. intros d -> B t.
  unfold decode. rewrite dec_step. destruct d as [|x d0] eqn:Ed; [intros H; injection H as <-; reflexivity|].
  rewrite <- Ed in *. clear Ed. destruct (step k d) as [c r| |seg r] eqn:E; cbn [handle].
  - pose proof (shorter_char _ _ _ _ E) as L. destruct (step_raw k d c r B E) as (b & Eb & ->).
    apply is_bytes_app in B. destruct B as [_ B].
    specialize (IH _ L r eq_refl B). unfold decode in IH. destruct (dec_part k Strict r true) as [[t' r']|]; [|discriminate].
    cbn [cont_with]. intros H. injection H as <-. cbn [encode app]. unfold encode_one. rewrite Eb, (IH t' eq_refl). reflexivity.
  - discriminate.
  - rewrite kept_final. discriminate.
Qed.

(** * Ill-formed sequences *)
Lemma bad_no_char p x c b : decode_step p = DBad -> encode_cp c = Some b -> b <> p ++ x.
Proof.
  intros Hb He E. pose proof (enc_dec c b [] He) as D. rewrite E, app_nil_r in D.
  rewrite (step_bad_app p x Hb) in D. discriminate D.
Qed.
Lemma bad_not_begins p : decode_step p = DBad -> ~ begins_char Utf8 p.
Proof. intros H (c & b & more & E1 & E2). exact (bad_no_char p more c b H E1 E2). Qed.
Lemma more_begins p : p <> [] -> decode_step p = DMore -> begins_char Utf8 p.
Proof.
  intros N H. apply step_more in H. destruct H as [H|(c & b & more & E1 & E2 & _)]; [congruence|]. exists c, b, more. auto.
Qed.

Lemma prefix_firstn {A} (p q d : list A) n : d = p ++ q -> (n <= List.length p)%nat -> exists y, p = firstn n d ++ y.
Proof.
  intros -> H. exists (skipn n p). rewrite firstn_app. replace (n - List.length p)%nat with 0%nat by lia.
  cbn [firstn]. rewrite app_nil_r. symmetry. apply firstn_skipn.
Qed.

(** The step on ill-formed data finds the maximal subpart. *)
Lemma step_bad_at k d seg r : k <> Utf16le -> step k d = SBad seg r -> bad_at k seg r.
Proof.
  intros Hk H. pose proof H as H0. apply step_bad in H0. destruct H0 as (N & Ed & _).
  assert (NC : forall c b rest, raw k c = Some b -> seg ++ r <> b ++ rest).
  { intros c b rest E1 E2. rewrite <- Ed in E2. rewrite E2, (raw_step k c b rest E1) in H. discriminate H. }
  split; [exact N|]. split; [exact NC|]. destruct k; cbn [step] in H; [| | |congruence].
  - unfold utf8_step in H. destruct (decode_step d) as [c' r'| |] eqn:E; try discriminate H. injection H as Hs Hr.
    destruct (bad_cases d E) as (n & E1 & E2 & E3 & E4 & E5 & E6 & E7). rewrite E1 in Hs, Hr.
    assert (Ls : List.length seg = S n) by (rewrite <- Hs, firstn_length; lia). split.
    + destruct E4 as [->|E4]; [left; exact Ls|]. right. apply more_begins; [exact N|]. rewrite <- Hs. exact E4.
    + intros p q Ep Lp. destruct (prefix_firstn p q (seg ++ r) (S (S n)) Ep ltac:(lia)) as (y & ->).
      apply bad_not_begins. apply step_bad_app. rewrite <- Ed. exact E5.
  - destruct d; discriminate H.
  - destruct d as [|x d]; [discriminate H|]. destruct (in_range 0 127 x) eqn:R; [discriminate H|]. injection H as <- <-.
    split; [left; reflexivity|]. intros p q Ep Lp (c & b & more & E1 & E2). cbn [raw] in E1.
    destruct (in_range 0 127 c); [|discriminate E1]. injection E1 as <-. cbn [List.length] in Lp.
    apply (f_equal (@List.length Z)) in E2. rewrite app_length in E2. cbn in E2. lia.
Qed.

Lemma more_bad_at k d : k <> Utf16le -> d <> [] -> step k d = SMore -> bad_at k d [].
Proof.
  intros Hk N H. split; [exact N|]. split; [|split].
  - intros c b rest E1 E2. rewrite app_nil_r in E2. rewrite E2, (raw_step k c b rest E1) in H. discriminate H.
  - destruct k; cbn [step] in H; [| | |congruence].
    + right. unfold utf8_step in H. destruct (decode_step d) eqn:E; try discriminate H. apply more_begins; assumption.
    + destruct d; [congruence|discriminate H].
    + destruct d as [|x d]; [congruence|]. destruct (in_range 0 127 x); discriminate H.
  - intros p q E L. rewrite app_nil_r in E. rewrite E, app_length in L. lia.
Qed.

(** ... and there is no other one. *)
Lemma bad_at_step k seg r : k <> Utf16le -> is_bytes (seg ++ r) -> bad_at k seg r ->
  step k (seg ++ r) = SBad seg r \/ (r = [] /\ step k (seg ++ r) = SMore).
Proof.
  intros Hk B (N & NC & Mx & NL). destruct k; [| | |congruence].
  - cbn [step]. unfold utf8_step. destruct (decode_step (seg ++ r)) as [c q| |] eqn:E.
    + exfalso. apply dec_enc in E. destruct E as (b & E1 & E2). exact (NC c b q E1 E2).
    + right. split; [|reflexivity]. destruct r as [|x r]; [reflexivity|]. exfalso.
      refine (NL (seg ++ x :: r) [] _ _ _).
      * rewrite app_nil_r. reflexivity.
      * rewrite app_length. cbn. lia.
      * apply more_begins; [|exact E]. destruct seg; [congruence|discriminate].
    + left. destruct (bad_cases _ E) as (n & E1 & E2 & E3 & E4 & E5 & E6 & E7). rewrite E1.
      assert (Ls : List.length seg = S n).
      { destruct (lt_eq_lt_dec (List.length seg) (S n)) as [[L|L]|L]; [exfalso|exact L|exfalso].
        - refine (NL (firstn (S n) (seg ++ r)) (skipn (S n) (seg ++ r)) _ _ _).
          + symmetry. apply firstn_skipn.
          + rewrite firstn_length. lia.
          + destruct E4 as [->|E4]; [destruct seg; [congruence|cbn in L; lia]|].
            apply more_begins; [|exact E4]. destruct seg; [congruence|discriminate].
        - destruct Mx as [Mx|Mx]; [destruct seg as [|s0 seg]; [congruence|cbn in Mx, L; lia]|].
          destruct (prefix_firstn seg r (seg ++ r) (S (S n)) eq_refl ltac:(lia)) as (y & Ey).
          rewrite Ey in Mx. revert Mx. apply bad_not_begins. apply step_bad_app. exact E5. }
      rewrite <- Ls. rewrite firstn_app, skipn_app, firstn_all, skipn_all, Nat.sub_diag.
      cbn [firstn skipn]. rewrite app_nil_r. reflexivity.
  - exfalso. destruct seg as [|x seg]; [congruence|]. cbn [raw] in NC. destruct (in_range 0 255 x) eqn:R.
    + apply (NC x [x] (seg ++ r)); [rewrite R; reflexivity|reflexivity].
    + inversion B; subst. rng. lia.
  - left. destruct seg as [|x seg]; [congruence|]. cbn [step app]. destruct (in_range 0 127 x) eqn:R.
    + exfalso. cbn [raw] in NC. apply (NC x [x] (seg ++ r)); [rewrite R; reflexivity|reflexivity].
    + destruct Mx as [Mx|(c & b & more & E1 & E2)].
      * destruct seg; [reflexivity|discriminate Mx].
      * cbn [raw] in E1. destruct (in_range 0 127 c) eqn:Rc; [|discriminate E1]. injection E1 as <-.
        injection E2 as -> E2. congruence.
Qed.
