(** Proofs for C124-C126. *)
From Verif Require Import Base Utf8Model Utf8Spec Utf8Proofs EncodingModel EncodingSpec EncodingProofs CopyModel CopySpec CopyProofs.
Open Scope Z_scope.

(** * The handlers *)
Lemma high_bytes_all n d : Forall (fun b => 128 <= b) d -> (List.length d <= n)%nat -> high_bytes n d = d.
Proof.
  revert d. induction n as [|n IH]; intros [|b d] F L; cbn [high_bytes]; try reflexivity.
  - cbn in L. lia.
  - inversion F; subst. destruct (Z.leb_spec 128 b); [|lia]. rewrite IH; [reflexivity|assumption|cbn in L; lia].
Qed.


Lemma handle_high e seg : e <> Strict -> seg <> [] -> Forall (fun b => 128 <= b) seg -> (List.length seg <= 4)%nat ->
  handle e seg = Some (replacement e seg, []).
Proof.
  intros He N F L. destruct e; try reflexivity; [congruence|]. cbn [handle replacement].
  rewrite (high_bytes_all 4 seg F L). destruct seg as [|x seg]; [congruence|].
  f_equal. f_equal. cbn [skipn List.length]. apply skipn_all.
Qed.

Lemma raw_len4 k c b : raw k c = Some b -> (List.length b <= 4)%nat.
Proof.
  destruct k; cbn [raw].
  - unfold encode_cp. repeat (match goal with |- (if ?x then _ else _) = _ -> _ => destruct x end);
      intros H; try discriminate H; injection H as <-; cbn; lia.
  - destruct (in_range 0 255 c); [|discriminate]. intros H; injection H as <-. cbn; lia.
  - destruct (in_range 0 127 c); [|discriminate]. intros H; injection H as <-. cbn; lia.
  - destruct (in_range _ _ c); [discriminate|]. destruct (in_range _ _ c).
    + intros H; injection H as <-. unfold bytes16. cbn. lia.
    + destruct (in_range _ _ c); [|discriminate]. intros H; injection H as <-. unfold bytes16. cbn. lia.
Qed.

(** An ill-formed sequence has at most three bytes, all above 127. *)
Lemma bad_high k d seg r : k <> Utf16le -> is_bytes d -> step k d = SBad seg r ->
  Forall (fun b => 128 <= b) seg /\ (List.length seg <= 4)%nat.
Proof.
  intros Hk B H. destruct k; cbn [step] in H; [| | |congruence].
  - unfold utf8_step in H. destruct (decode_step d) as [c' r'| |] eqn:E; try discriminate H. injection H as <- <-.
    destruct (bad_cases d E) as (n & E1 & E2 & E3 & E4 & E5 & E6 & E7). rewrite E1. split.
    + rewrite Forall_forall in *. intros x Hx. specialize (E7 x Hx).
      assert (Hin : In x d) by (rewrite <- (firstn_skipn (S n) d); apply in_or_app; auto).
      unfold is_bytes in B. rewrite Forall_forall in B. specialize (B x Hin). lia.
    + rewrite firstn_length. lia.
  - destruct d; discriminate H.
  - destruct d as [|x d]; [discriminate H|]. destruct (in_range 0 127 x) eqn:R; [discriminate H|]. injection H as <- <-.
    inversion B; subst. split; [|cbn; lia]. repeat apply Forall_cons; try apply Forall_nil. rng. lia.
Qed.
Lemma more_high k d : k <> Utf16le -> step k d = SMore -> Forall (fun b => 128 <= b) d /\ (List.length d <= 4)%nat.
Proof.
  intros Hk H. destruct k; cbn [step] in H; [| | |congruence].
  - unfold utf8_step in H. destruct (decode_step d) as [c' r'| |] eqn:E; try discriminate H.
    split; [apply incomplete_high; exact E|]. apply step_more in E. destruct E as [->|(c & b & more & E1 & -> & _)]; [cbn; lia|].
    pose proof (raw_len4 Utf8 c _ E1) as L. rewrite app_length in L. lia.
  - destruct d; [split; [constructor|cbn; lia]|discriminate H].
  - destruct d as [|x d]; [split; [constructor|cbn; lia]|]. destruct (in_range 0 127 x); discriminate H.
Qed.

(** * Replace, ignore and surrogateescape never fail *)
Lemma decode_ne k e d : k <> Utf16le -> e <> Strict -> is_bytes d -> d <> [] ->
  decode k e d = match step k d with
                 | SChar c r => option_map (cons c) (decode k e r)
                 | SMore => Some (replacement e d)
                 | SBad seg r => option_map (app (replacement e seg)) (decode k e r)
                 end.
Proof.
  intros Hk He B N. unfold decode. rewrite (dec_ne k e d true N). destruct (step k d) as [c r| |seg r] eqn:E.
  - destruct (dec_part k e r true) as [[t q]|]; reflexivity.
  - destruct (more_high k d Hk E) as [F L]. rewrite (handle_high e d He N F L), dec_nil. cbn [cont_with]. rewrite app_nil_r. reflexivity.
  - destruct (bad_high k d seg r Hk B E) as [F L]. apply step_bad in E. destruct E as (Ns & _ & _).
    rewrite kept_final, (handle_high e seg He Ns F L). cbn [app]. destruct (dec_part k e r true) as [[t q]|]; reflexivity.
Qed.

Lemma decode_decoded k e d : k <> Utf16le -> e <> Strict -> is_bytes d ->
  exists t, decode k e d = Some t /\ decoded k (replacement e) d t.
Proof.
  intros Hk He. remember (List.length d) as n. revert d Heqn. induction n as [n IH] using lt_wf_ind. intros d -> B.
  assert (N : d = [] \/ d <> []) by (destruct d; [left; reflexivity|right; discriminate]).
  destruct N as [->|N]; [exists []; split; [reflexivity|constructor]|].
  rewrite (decode_ne k e d Hk He B N). destruct (step k d) as [c r| |seg r] eqn:E.
  - pose proof (shorter_char _ _ _ _ E) as L. destruct (step_raw k d c r B E) as (b & Eb & ->).
    apply is_bytes_app in B. destruct (IH _ L r eq_refl (proj2 B)) as (t & -> & D). exists (c :: t). split; [reflexivity|].
    constructor; assumption.
  - exists (replacement e d). split; [reflexivity|]. rewrite <- (app_nil_r d) at 1. rewrite <- (app_nil_r (replacement e d)).
    apply d_bad; [apply more_bad_at; assumption|constructor].
  - pose proof E as E0. apply step_bad in E. destruct E as (Ns & -> & _).
    assert (L : (List.length r < List.length (seg ++ r))%nat) by (rewrite app_length; destruct seg; [congruence|cbn; lia]).
    apply is_bytes_app in B. destruct (IH _ L r eq_refl (proj2 B)) as (t & -> & D). exists (replacement e seg ++ t).
    split; [reflexivity|]. apply d_bad; [eapply step_bad_at; eassumption|assumption].
Qed.

Lemma decoded_decode k e d t : k <> Utf16le -> e <> Strict -> is_bytes d -> decoded k (replacement e) d t -> decode k e d = Some t.
Proof.
  intros Hk He B D. induction D as [|c b r t Eb D IH|seg r t Hb D IH].
  - reflexivity.
  - apply is_bytes_app in B. rewrite (decode_cons k e c b r Eb), IH by apply B. reflexivity.
  - pose proof B as B0. apply is_bytes_app in B. specialize (IH (proj2 B)).
    assert (N : seg ++ r <> []) by (destruct Hb as (N & _); destruct seg; [congruence|discriminate]).
    rewrite (decode_ne k e _ Hk He B0 N). destruct (bad_at_step k seg r Hk B0 Hb) as [->|[-> ->]].
    + rewrite IH. reflexivity.
    + rewrite app_nil_r. assert (Et : t = []).
      { cbn in IH. injection IH as <-. reflexivity. }
      rewrite Et, app_nil_r. reflexivity.
Qed.

(** * surrogateescape loses nothing *)
Lemma raw_escape k b : k <> Utf16le -> 128 <= b <= 255 -> raw k (56320 + b) = None.
Proof.
  intros Hk B. destruct k; cbn [raw]; [| | |congruence].
  - unfold encode_cp. repeat decide_range. reflexivity.
  - decide_range. reflexivity.
  - decide_range. reflexivity.
Qed.
Lemma encode_app k e t1 t2 : encode k e (t1 ++ t2) =
  match encode k e t1, encode k e t2 with Some a, Some b => Some (a ++ b) | _, _ => None end.
Proof.
  induction t1 as [|c t1 IH]; cbn [app encode]; [destruct (encode k e t2); reflexivity|]. rewrite IH.
  destruct (encode_one k e c); [|reflexivity]. destruct (encode k e t1); [|reflexivity].
  destruct (encode k e t2); [|reflexivity]. rewrite app_assoc. reflexivity.
Qed.
Lemma encode_escape k seg : k <> Utf16le -> is_bytes seg -> Forall (fun b => 128 <= b) seg ->
  encode k SurrogateEscape (map (fun b => 56320 + b) seg) = Some seg.
Proof.
  intros Hk B F. induction seg as [|x seg IH]; cbn [map encode]; [reflexivity|].
  inversion B; subst. inversion F; subst. rewrite IH by assumption. unfold encode_one. rewrite raw_escape by (assumption || lia).
  replace (56320 + x - 56320) with x by lia. decide_range. destruct k; try reflexivity. congruence.
Qed.
Lemma encode_raw k e c b r d : raw k c = Some b -> encode k e r = Some d -> encode k e (c :: r) = Some (b ++ d).
Proof. intros H1 H2. cbn [encode]. unfold encode_one. rewrite H1, H2. reflexivity. Qed.

Lemma escape_roundtrip k d : k <> Utf16le -> is_bytes d ->
  exists t, decode k SurrogateEscape d = Some t /\ encode k SurrogateEscape t = Some d.
Proof.
  intros Hk. remember (List.length d) as n. revert d Heqn. induction n as [n IH] using lt_wf_ind. intros d -> B.
  assert (N : d = [] \/ d <> []) by (destruct d; [left; reflexivity|right; discriminate]).
  destruct N as [->|N]; [exists []; split; reflexivity|].
  rewrite (decode_ne k SurrogateEscape d Hk ltac:(discriminate) B N). destruct (step k d) as [c r| |seg r] eqn:E.
  - pose proof (shorter_char _ _ _ _ E) as L. destruct (step_raw k d c r B E) as (b & Eb & ->).
    apply is_bytes_app in B. destruct (IH _ L r eq_refl (proj2 B)) as (t & -> & D). exists (c :: t). split; [reflexivity|].
    apply encode_raw; assumption.
  - destruct (more_high k d Hk E) as [F L]. eexists. split; [reflexivity|]. apply encode_escape; assumption.
  - destruct (bad_high k d seg r Hk B E) as [F _]. pose proof E as E0. apply step_bad in E. destruct E as (Ns & -> & _).
    assert (L : (List.length r < List.length (seg ++ r))%nat) by (rewrite app_length; destruct seg; [congruence|cbn; lia]).
    apply is_bytes_app in B. destruct (IH _ L r eq_refl (proj2 B)) as (t & -> & D). eexists. split; [reflexivity|].
    cbn [replacement]. rewrite encode_app, (encode_escape k seg Hk (proj1 B) F), D. reflexivity.
Qed.

(** * Cutting *)
Lemma raw_prefix_more k c p q : raw k c = Some (p ++ q) -> q <> [] -> step k p = SMore.
Proof.
  intros H N. destruct k; cbn [step].
  - cbn [raw] in H. unfold utf8_step. replace (decode_step p) with DMore; [reflexivity|].
    symmetry. apply step_more. right. exists c, (p ++ q), q. auto.
  - cbn [raw] in H. destruct (in_range 0 255 c); [|discriminate H]. injection H as H. destruct p as [|x p]; [reflexivity|].
    destruct p; destruct q; try congruence; discriminate H.
  - cbn [raw] in H. destruct (in_range 0 127 c); [|discriminate H]. injection H as H. destruct p as [|x p]; [reflexivity|].
    destruct p; destruct q; try congruence; discriminate H.
  - pose proof (raw_len4 _ _ _ H) as L. pose proof (raw_step _ _ _ [] H) as E. cbn [step] in E. rewrite app_nil_r in E.
    unfold utf16_step in *. destruct p as [|lo [|hi p]]; try reflexivity. cbn [app] in E. cbv zeta in *.
    destruct (in_range 55296 56319 (unit16 lo hi)).
    + destruct p as [|lo2 [|hi2 p]]; try reflexivity. exfalso.
      cbn [app List.length] in L. rewrite app_length in L. destruct q; [congruence|]. cbn in L. lia.
    + destruct (in_range 56320 57343 (unit16 lo hi)); [discriminate E|]. assert (E2 : p ++ q = []) by congruence. destruct p; [destruct (N E2)|discriminate E2].
Qed.

(** A valid text whose bytes are cut: the whole characters, and maybe the
    beginning of the next one. *)
Lemma cut_spec k t : forall d n, encode k Strict t = Some d ->
  exists t1 t2 d1 part, t = t1 ++ t2 /\ encode k Strict t1 = Some d1 /\ firstn n d = d1 ++ part
    /\ (part = [] \/ exists c t3 rest, t2 = c :: t3 /\ raw k c = Some (part ++ rest) /\ rest <> []).
Proof.
  induction t as [|c t IH]; intros d n H.
  - cbn in H. injection H as <-. exists [], [], [], []. rewrite firstn_nil. repeat split; auto.
  - cbn [encode] in H. unfold encode_one in H. destruct (raw k c) as [b|] eqn:E; [|discriminate H].
    destruct (encode k Strict t) as [d'|] eqn:Et; [|discriminate H]. injection H as <-.
    destruct (le_lt_dec (List.length b) n) as [L|L].
    + destruct (IH d' (n - List.length b)%nat eq_refl) as (t1 & t2 & d1 & part & A1 & A2 & A3 & A4).
      exists (c :: t1), t2, (b ++ d1), part. rewrite A1. repeat split; [apply encode_raw; assumption| |exact A4].
      rewrite firstn_app, firstn_all2 by lia. rewrite A3, app_assoc. reflexivity.
    + exists [], (c :: t), [], (firstn n b). repeat split.
      * rewrite firstn_app. replace (n - List.length b)%nat with 0%nat by lia. cbn. rewrite app_nil_r. reflexivity.
      * right. exists c, t, (skipn n b). rewrite firstn_skipn. repeat split; [exact E|].
        intros E2. pose proof (skipn_length n b) as L2. rewrite E2 in L2. cbn in L2. lia.
Qed.

Lemma decode_enc_app k e t d x : encode k Strict t = Some d -> decode k e (d ++ x) = option_map (app t) (decode k e x).
Proof.
  revert d. induction t as [|c t IH]; intros d H.
  - cbn in H. injection H as <-. cbn [app]. destruct (decode k e x); reflexivity.
  - cbn [encode] in H. unfold encode_one in H. destruct (raw k c) as [b|] eqn:E; [|discriminate H].
    destruct (encode k Strict t) as [d'|] eqn:Et; [|discriminate H]. injection H as <-.
    rewrite <- app_assoc, (decode_cons k e c b _ E), (IH d' eq_refl). destruct (decode k e x); reflexivity.
Qed.

Lemma decode_part_strict k c part rest : part <> [] -> raw k c = Some (part ++ rest) -> rest <> [] -> decode k Strict part = None.
Proof.
  intros N H1 H2. unfold decode. rewrite (dec_ne _ _ _ _ N), (raw_prefix_more k c part rest H1 H2). reflexivity.
Qed.
Lemma decode_part_total k e c part rest : total k e -> raw k c = Some (part ++ rest) -> rest <> [] -> part <> [] ->
  decode k e part = Some (replacement e part).
Proof.
  intros T H1 H2 N. pose proof (raw_prefix_more k c part rest H1 H2) as M. unfold decode. rewrite (dec_ne _ _ _ _ N), M.
  destruct T as [->|[->|[Hk ->]]]; try reflexivity.
  destruct (more_high k part Hk M) as [F L]. rewrite (handle_high SurrogateEscape part ltac:(discriminate) N F L), dec_nil.
  cbn [cont_with]. rewrite app_nil_r. reflexivity.
Qed.

(** * Lines *)
Lemma bytes_no10 k c b : k <> Utf16le -> raw k c = Some b -> In 10 b -> c = 10 /\ b = [10].
Proof.
  intros Hk H I0. destruct k; cbn [raw] in H; [| | |congruence].
  - apply encode_cp_bytes in H. destruct H as [->|H]; [destruct I0 as [->|[]]; auto|].
    rewrite Forall_forall in H. specialize (H 10 I0). lia.
  - destruct (in_range 0 255 c); [|discriminate H]. injection H as <-. destruct I0 as [->|[]]; auto.
  - destruct (in_range 0 127 c); [|discriminate H]. injection H as <-. destruct I0 as [->|[]]; auto.
Qed.
Lemma high_no10 d : Forall (fun b => 128 <= b) d -> ~ In 10 d.
Proof. intros F I0. rewrite Forall_forall in F. specialize (F 10 I0). lia. Qed.

(** A newline ends whatever was pending. *)
Lemma dec_nl k e l t r : k <> Utf16le -> dec_part k e (l ++ [10]) false = Some (t, r) -> r = [].
Proof.
  intros Hk H. apply dec_rest in H. destruct H as [[->|[_ H]] (pre & E)]; [reflexivity|].
  assert (F : Forall (fun b => 128 <= b) r).
  { destruct H as [H|H]; [apply (more_high k r Hk H)|]. destruct k; try discriminate H. apply cut_high. exact H. }
  clear H. destruct r as [|x r]; [reflexivity|]. exfalso.

  apply (high_no10 _ F). assert (E2 : In 10 (rev (pre ++ x :: r))) by (rewrite <- E, rev_app_distr; left; reflexivity).
  clear - E E2. destruct (exists_last (l := x :: r)) as (r' & y & E3); [discriminate|]. rewrite E3 in *.
  rewrite app_assoc in E. apply app_inj_tail in E. destruct E as [_ <-]. apply in_or_app. right. left. reflexivity.
Qed.

Lemma decode_nl k e l r : k <> Utf16le -> decode k e ((l ++ [10]) ++ r) =
  match decode k e (l ++ [10]), decode k e r with Some a, Some b => Some (a ++ b) | _, _ => None end.
Proof.
  intros Hk. unfold decode.
  assert (A1 : dec_part k e (l ++ [10]) true = dec_part k e ((l ++ [10]) ++ []) true) by (rewrite app_nil_r; reflexivity).
  rewrite A1, !(dec_app k e (l ++ [10])).
  destruct (dec_part k e (l ++ [10]) false) as [[t q]|] eqn:E; [|reflexivity].
  apply dec_nl in E; [|exact Hk]. subst q. cbn [app]. rewrite dec_nil. cbn [cont_with]. rewrite app_nil_r.
  destruct (dec_part k e r true) as [[t' q']|]; reflexivity.
Qed.

(** A newline in the text is one in the data. *)
Lemma handle_no10 e seg t back : handle e seg = Some (t, back) -> ~ In 10 t.
Proof.
  destruct e; cbn [handle]; intros H.
  - discriminate H.
  - injection H as <- <-. intros [H|[]]. discriminate H.
  - injection H as <- <-. intros [].
  - assert (Hh : Forall (fun b => 128 <= b) (high_bytes 4 seg)).
    { generalize 4%nat. intros n. clear H. revert n. induction seg as [|x seg IH]; intros [|n]; cbn [high_bytes]; try constructor.
      destruct (Z.leb_spec 128 x); constructor; auto. }
    destruct (high_bytes 4 seg) as [|h hs]; [discriminate H|].
    assert (Ht : t = map (fun b => 56320 + b) (h :: hs)) by congruence. rewrite Ht. intros I0.
    apply in_map_iff in I0. destruct I0 as (x & E & I0). rewrite Forall_forall in Hh. specialize (Hh x I0). lia.
Qed.

Lemma dec_no10 k e d : k <> Utf16le -> is_bytes d -> forall fin t r, dec_part k e d fin = Some (t, r) -> ~ In 10 d -> ~ In 10 t.
Proof.
  intros Hk. remember (List.length d) as n. revert d Heqn. induction n as [n IH] using lt_wf_ind. intros d -> B fin t r H N10.
  assert (N : d = [] \/ d <> []) by (destruct d; [left; reflexivity|right; discriminate]).
  destruct N as [->|N]; [rewrite dec_nil in H; injection H as <- <-; exact N10|].
  rewrite (dec_ne _ _ _ _ N) in H. destruct (step k d) as [c r0| |seg r0] eqn:E.
  - pose proof (shorter_char _ _ _ _ E) as L. destruct (step_raw k d c r0 B E) as (b & Eb & ->).
    apply is_bytes_app in B. rewrite in_app_iff in N10.
    destruct (dec_part k e r0 fin) as [[t1 r1]|] eqn:E1; [|discriminate H]. injection H as <- <-.
    specialize (IH _ L r0 eq_refl (proj2 B) fin t1 r1 E1 ltac:(tauto)). cbn [app]. intros [->|I0]; [|tauto].
    pose proof (raw_step k 10 [10] []) as A. assert (Hr : raw k 10 = Some [10]) by (destruct k; [reflexivity|reflexivity|reflexivity|congruence]).
    rewrite Hr in Eb. injection Eb as <-. apply N10. left. left. reflexivity.
  - destruct fin; [|injection H as <- <-; intros []].
    destruct (handle e d) as [[t0 back]|] eqn:Eh; [|discriminate H]. pose proof (shorter_more _ _ _ _ N Eh) as L.
    pose proof (handle_no10 _ _ _ _ Eh). apply handle_back in Eh; [|exact N]. destruct Eh as (p & _ & ->).
    destruct (dec_part k e back true) as [[t1 r1]|] eqn:E1; [|discriminate H]. injection H as <- <-.
    apply is_bytes_app in B. rewrite in_app_iff in N10. specialize (IH _ L back eq_refl (proj2 B) true t1 r1 E1 ltac:(tauto)).
    rewrite in_app_iff. tauto.
  - destruct (kept k d fin); [injection H as <- <-; intros []|].
    destruct (handle e seg) as [[t0 back]|] eqn:Eh; [|discriminate H].
    pose proof (shorter_bad _ _ _ _ _ _ _ E Eh) as L. apply step_bad in E. destruct E as (Ns & -> & _).
    pose proof (handle_no10 _ _ _ _ Eh). apply handle_back in Eh; [|exact Ns]. destruct Eh as (p & _ & ->).
    destruct (dec_part k e (back ++ r0) fin) as [[t1 r1]|] eqn:E1; [|discriminate H]. injection H as <- <-.
    rewrite <- app_assoc in *. apply is_bytes_app in B. rewrite in_app_iff in N10.
    specialize (IH _ L _ eq_refl (proj2 B) fin t1 r1 E1 ltac:(tauto)). rewrite in_app_iff. tauto.
Qed.

Lemma dec_line k e l t : k <> Utf16le -> is_bytes l -> ~ In 10 l -> decode k e (l ++ [10]) = Some t ->
  exists t', t = t' ++ [10] /\ ~ In 10 t'.
Proof.
  intros Hk. remember (List.length l) as n. revert l Heqn t. induction n as [n IH] using lt_wf_ind. intros l -> t B N10 H.
  assert (Hr : raw k 10 = Some [10]) by (destruct k; [reflexivity|reflexivity|reflexivity|congruence]).
  assert (N : l = [] \/ l <> []) by (destruct l; [left; reflexivity|right; discriminate]).
  destruct N as [->|N].
  { change (([] : bytes) ++ [10]) with ([10] ++ ([] : bytes)) in H. rewrite (decode_cons k e 10 [10] [] Hr) in H. cbn in H. injection H as <-. exists []. auto. }
  assert (N2 : l ++ [10] <> []) by (destruct l; discriminate).
  assert (B2 : is_bytes (l ++ [10])) by (apply is_bytes_app; split; [exact B|repeat constructor; lia]).
  unfold decode in H. rewrite (dec_ne _ _ _ _ N2) in H. destruct (step k (l ++ [10])) as [c r| |seg r] eqn:E.
  - destruct (step_raw k _ c r B2 E) as (b & Eb & E2). apply shorter_char in E.
    destruct r as [|x r] using rev_ind.
    { exfalso. rewrite app_nil_r in E2. assert (In 10 b) by (rewrite <- E2; apply in_or_app; right; left; reflexivity).
      destruct (bytes_no10 k c b Hk Eb H0) as [_ ->]. destruct l as [|y l]; [congruence|]. destruct l; discriminate E2. }
    rewrite app_assoc in E2. apply app_inj_tail in E2. destruct E2 as [-> <-].
    apply is_bytes_app in B. rewrite in_app_iff in N10.
    destruct (dec_part k e (r ++ [10]) true) as [[t1 r1]|] eqn:E1; [|discriminate H]. injection H as <-.
    rewrite !app_length in E. cbn in E.
    destruct (IH (List.length r)) with (l := r) (t := t1) as (t' & -> & A); [rewrite app_length; apply raw_nonempty in Eb; destruct b; [congruence|cbn; lia]|reflexivity|apply B|tauto|unfold decode; rewrite E1; reflexivity|].
    exists (c :: t'). split; [reflexivity|]. intros [->|I0]; [|tauto]. rewrite Hr in Eb. injection Eb as <-. apply N10. left. left. reflexivity.
  - exfalso. apply more_high in E; [|exact Hk]. destruct E as [F _]. apply (high_no10 _ F). apply in_or_app. right. left. reflexivity.
  - destruct (bad_high k _ seg r Hk B2 E) as [F _]. rewrite kept_final in H. destruct (handle e seg) as [[t0 back]|] eqn:Eh; [|discriminate H].
    pose proof E as E0. apply step_bad in E. destruct E as (Ns & E2 & _).
    destruct r as [|x r] using rev_ind.
    { exfalso. rewrite app_nil_r in E2. apply (high_no10 _ F). rewrite <- E2. apply in_or_app; right; left; reflexivity. }
    rewrite app_assoc in E2. apply app_inj_tail in E2. destruct E2 as [-> <-].
    pose proof (handle_no10 _ _ _ _ Eh) as H0. apply handle_back in Eh; [|exact Ns]. destruct Eh as (p & Np & ->).
    rewrite <- app_assoc in *. apply is_bytes_app in B. rewrite in_app_iff in N10.
    rewrite (app_assoc back r [10]) in H.
    destruct (dec_part k e ((back ++ r) ++ [10]) true) as [[t1 r1]|] eqn:E1; [|discriminate H]. injection H as <-.
    destruct (IH (List.length (back ++ r))) with (l := back ++ r) (t := t1) as (t' & -> & A);
      [rewrite (app_length p); destruct p; [congruence|cbn; lia]|reflexivity|apply B|tauto|unfold decode; rewrite E1; reflexivity|].
    exists (t0 ++ t'). rewrite app_assoc. split; [reflexivity|]. rewrite in_app_iff. tauto.
Qed.

Lemma decode_nonempty k e l : ~ In 10 l -> is_bytes l -> k <> Utf16le -> forall t, decode k e l = Some t -> ~ In 10 t.
Proof.
  intros N B Hk t H. unfold decode in H. destruct (dec_part k e l true) as [[t1 r]|] eqn:E; [|discriminate H]. injection H as <-.
  eapply dec_no10; eassumption.
Qed.

Lemma split_lines_cases d : (~ In 10 d) \/ exists l r, d = (l ++ [10]) ++ r /\ ~ In 10 l.
Proof.
  induction d as [|x d IH]; [left; intros []|]. destruct (Z.eq_dec x 10) as [->|Nx].
  - right. exists [], d. split; [reflexivity|intros []].
  - destruct IH as [IH|(l & r & -> & N)]; [left; intros [H|H]; tauto|]. right. exists (x :: l), r. split; [reflexivity|].
    intros [H|H]; tauto.
Qed.

(** Decoding line by line gives the lines of the text (a last line that
    decodes to nothing is an empty string). *)

Lemma lines_decode k e d x : k <> Utf16le -> is_bytes d ->
  match decode k e d with
  | Some t => exists ts, read_lines (decode k e) (split_lines d) x = (ts, x) /\ List.concat ts = t /\ drop_empty ts = split_lines t
                /\ List.length ts = List.length (split_lines d)
  | None => exists l1 l l2, split_lines d = l1 ++ l :: l2 /\ decode k e l = None /\ Forall (fun l' => decode k e l' <> None) l1
      /\ exists ts, read_lines (decode k e) (split_lines d) x = (ts, Some UnicodeError) /\ List.length ts = List.length l1
  end.
Proof.
  intros Hk. remember (List.length d) as n. revert d Heqn. induction n as [n IH] using lt_wf_ind. intros d -> B.
  destruct (split_lines_cases d) as [N|(l & r & -> & N)].
  - rewrite (split_lines_nonl d N). destruct d as [|y d0] eqn:Ed.
    + exists []. repeat split; reflexivity.
    + rewrite <- Ed in *. destruct (decode k e d) as [t|] eqn:E.
      * exists [t]. cbn [read_lines List.concat List.length]. rewrite E, app_nil_r. repeat split.
        pose proof (decode_nonempty k e d N B Hk t E) as Nt. rewrite (split_lines_nonl t Nt). destruct t; reflexivity.
      * exists [], d, []. repeat split; [exact E|constructor|]. exists []. cbn [read_lines]. rewrite E. split; reflexivity.
  - rewrite <- app_assoc. cbn [app]. rewrite (split_lines_nl l r N). change (l ++ 10 :: r) with (l ++ [10] ++ r).
    rewrite app_assoc, (decode_nl k e l r Hk).
    assert (L : (List.length r < List.length ((l ++ [10%Z]) ++ r))%nat) by (rewrite !app_length; cbn; lia).
    apply is_bytes_app in B. destruct B as [B1 B2]. specialize (IH _ L r eq_refl B2). cbn [read_lines].
    destruct (decode k e (l ++ [10])) as [a|] eqn:Ea.
    + apply is_bytes_app in B1. destruct (dec_line k e l a Hk (proj1 B1) N Ea) as (t' & -> & Nt).
      destruct (decode k e r) as [b|] eqn:Eb.
      * destruct IH as (ts & -> & <- & A & A2). exists ((t' ++ [10]) :: ts). cbn [List.concat List.length]. repeat split; [|rewrite A2; reflexivity].
        rewrite <- app_assoc. cbn [app]. rewrite (split_lines_nl t' _ Nt), <- A. cbn [drop_empty filter].
        destruct (t' ++ [10]) eqn:E0; [destruct t'; discriminate E0|reflexivity].
      * destruct IH as (l1 & l0 & l2 & -> & A & F & ts & -> & A2). exists ((l ++ [10]) :: l1), l0, l2. repeat split; [exact A| |].
        -- constructor; [rewrite Ea; discriminate|exact F].
        -- exists ((t' ++ [10]) :: ts). cbn [List.length]. rewrite A2. split; reflexivity.
    + exists [], (l ++ [10]), (split_lines r). repeat split; [exact Ea|constructor|]. exists []. split; reflexivity.
Qed.
