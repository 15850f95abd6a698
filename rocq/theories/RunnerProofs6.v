From Verif Require Import AsyncModel AsyncSpec AsyncProofs HarvestModel HarvestSpec HarvestProofs HarvestProofs2 AsyncInv
  RunnerModel RunnerSpec RunnerProofs RunnerProofs2 RunnerProofs3 RunnerProofs4 RunnerProofs5.
Open Scope Z_scope.

Section R.
Context (o : opts) (ext piped_stdin use_pty : bool) (out_bytes err_bytes : option bytes) (enc : text).
Notation world := (world rx rkind unit).
Notation M := (@M rx rkind unit).
Notation rstep := (rstep o).
Notation rfinish := (rfinish ext).
Notation kill := (kill o ext).
Notation J := (J ext).
Notation reg := (reg o ext).
Notation envrel := (envrel o).
Notation uninterrupted := (uninterrupted o ext).
Notation subprocess_spawn := (subprocess_spawn o ext use_pty).
Notation start := (start o ext use_pty).
Notation aenter := (aenter o ext use_pty out_bytes err_bytes enc).

Lemma env_step_mk (w : world) ev w' c : env_step rstep rfinish w ev = Some (w', c) -> mk w' = (mk w + (if c then 1 else 0))%nat.
Proof.
  destruct ev as [i r|e]; cbn.
  - destruct (nth_error (w_tasks w) i) as [t|]; [|discriminate]. destruct (t_out t); [discriminate|].
    destruct (rfinish (w_x w) t r) as [x'|] eqn:Q; [|discriminate]. intros [= <- <-]. unfold mk. cbn.
    rewrite (fr_log _ _ _ (rfinish_frame _ _ _ _ _ Q)), marks_app. cbn. lia.
  - destruct (rstep (w_x w) e) as [[x' c']|] eqn:Q; [|discriminate]. intros [= <- <-]. unfold mk. cbn.
    destruct (rstep_frame _ _ _ _ _ Q) as (l & F & _ & Mk). rewrite (fr_log _ _ _ F), marks_app, Mk. reflexivity.
Qed.
Lemma req_mk (w : world) i : mk (req w i) = mk w.
Proof. unfold mk. now rewrite req_x. Qed.
(** Waiting without a target: the wait is interrupted exactly when the main task is cancelled. *)
Lemma wait_run_mk mode evs : forall (w : world) s w' s', wait_run rstep rfinish mode None (w, s) evs = Some (w', s') ->
  (s_canc s' = false -> s_canc s = false /\ mk w' = mk w) /\ (s_canc s = false -> s_canc s' = true -> (mk w < mk w')%nat) /\ (mk w <= mk w')%nat.
Proof.
  induction evs as [|ev evs IH]; intros w s w' s'; cbn [wait_run].
  - intros [= <- <-]. split; [auto|]. split; [congruence|lia].
  - destruct (wait_step _ _ _ _ _ _) as [[w1 s1]|] eqn:E; [|discriminate]. intros R. destruct (IH _ _ _ _ R) as (A & B & C).
    destruct ev as [e|i|]; cbn [wait_step] in E.
    + destruct (env_step rstep rfinish w e) as [[w2 []]|] eqn:Q; [| |discriminate]; apply env_step_mk in Q; injection E as <- <-; cbn in *.
      * split; [intros Z; apply A in Z as [Z _]; discriminate|]. split; lia.
      * split; [intros Z; destruct (A Z); split; [assumption|lia]|]. split; [intros Z1 Z2; specialize (B Z1 Z2); lia|lia].
    + destruct (_ && _); [|discriminate]. destruct (_ || _); injection E as <- <-; cbn in *; auto.
    + destruct (_ && _); [|discriminate]. injection E as <- <-; cbn in *. unfold mk in *. cbn in *. auto.
Qed.
(** Awaiting a task: once the wait is over the task is done. *)
Lemma wait_run_target mode i evs : forall (w : world) s w' s', wait_run rstep rfinish mode (Some i) (w, s) evs = Some (w', s') ->
  (s_canc s = true -> task_done w i = true) -> (s_canc s' = true -> task_done w' i = true) /\ (mk w <= mk w')%nat.
Proof.
  induction evs as [|ev evs IH]; intros w s w' s'; cbn [wait_run].
  - intros [= <- <-]. auto.
  - destruct (wait_step _ _ _ _ _ _) as [[w1 s1]|] eqn:E; [|discriminate]. intros R D.
    enough (Q : (s_canc s1 = true -> task_done w1 i = true) /\ (mk w <= mk w1)%nat).
    { destruct (IH _ _ _ _ R (proj1 Q)). split; [assumption|lia]. }
    destruct ev as [e|j|]; cbn [wait_step] in E.
    + destruct (env_step rstep rfinish w e) as [[w2 []]|] eqn:Q; [| |discriminate]; pose proof (env_step_mk _ _ _ _ Q) as Mk;
        apply env_step_ext in Q as (h & X & _).
      * destruct (task_done w2 i) eqn:D2; injection E as <- <-; cbn [s_canc]; [split; [auto|cbn in Mk; lia]|]; cbn in Mk.
        rewrite req_mk, req_task_done. split; [|lia]. intros Z. apply D in Z. apply (ext_done _ _ _ _ X) in Z. congruence.
      * injection E as <- <-. cbn in Mk. split; [|lia]. intros Z. apply (ext_done _ _ _ _ X). auto.
    + destruct (_ && _); [|discriminate]. destruct (_ || _); injection E as <- <-; cbn in *; auto.
    + destruct (_ && _); [|discriminate]. injection E as <- <-; cbn in *. unfold mk in *. cbn in *. auto.
Qed.

Definition ok_env {A} (m : M A) : Prop := forall w r w', m w r w' -> (J w -> J w') /\ exists l h, envrel w w' l h.
Lemma ok_of_keeps {A} (m : M A) : (forall P, stable rstep rfinish P -> keeps P m) -> ok_env m.
Proof.
  intros H w r w' R. split; [intros Q; exact (H _ (stable_J o ext) _ _ _ Q R)|].
  apply (H _ (stable_envrel o ext w) w r w'); [|exact R]. exists [], []. apply envrel_refl.
Qed.
Lemma envrel_trans w0 w1 w2 l1 h1 l2 h2 : envrel w0 w1 l1 h1 -> envrel w1 w2 l2 h2 -> envrel w0 w2 (l1 ++ l2) (h1 ++ h2).
Proof.
  intros [A1 A2 A3 A4 A5 A6 A7] [B1 B2 B3 B4 B5 B6 B7]. constructor.
  - eapply frame_trans; eauto.
  - now rewrite B2, A2, app_assoc.
  - now rewrite marks_app, cancels_app, A3, B3.
  - apply Forall_app. auto.
  - intros Q. now rewrite audits_app, signals_app, map_app, A5, B5.
  - intros Q. apply Forall_app. split; [auto|]. apply B6. now rewrite (fr_inside _ _ _ A1).
  - intros Q1 Q2. apply A7; [exact Q1|]. apply B7; [|exact Q2]. destruct (x_launching (w_x w1)) eqn:Z; [|reflexivity].
    apply (fr_launching _ _ _ A1) in Z. congruence.
Qed.
(** Predicates on the rest of the world that everything before the body keeps. *)
Record closed (P : rx -> Prop) : Prop := {
  cl_step : forall x e x' c, P x -> rstep x e = Some (x', c) -> P x';
  cl_finish : forall x t r x', P x -> rfinish x t r = Some x' -> P x';
  cl_launching : forall x b, P x -> P (set_launching b x);
  cl_tasks : forall x l, P x -> P (set_tasks l x)
}.
Lemma closed_stable P : closed P -> stable rstep rfinish (fun w => P (w_x w)).
Proof. intros [A B _ _]. now apply stable_x. Qed.
Definition KP (w w1 : world) : Prop := forall P, stable rstep rfinish P -> P w -> P w1.
Lemma KP_trans w w1 w2 : KP w w1 -> KP w1 w2 -> KP w w2.
Proof. intros A B P S Q. exact (B P S (A P S Q)). Qed.
Lemma k_await_any P : stable rstep rfinish P -> keeps P (await_any o ext).
Proof. intros S w r w' H (evs & s & R & _). eapply wait_run_keeps; eauto. Qed.

Lemma task_done_out (w : world) i : task_done w i = true <-> exists r, task_out w i = Some r.
Proof. unfold task_done. destruct (task_out w i); split; eauto; try discriminate. intros (r & Q). discriminate. Qed.

Lemma k_uninterrupted P : stable rstep rfinish P -> keeps P (uninterrupted KExec).
Proof.
  intros S. apply k_bind; [exact (k_spawn _ _ P S _)|]. intros i. apply k_try; [exact (k_await_shield _ _ P S _)|].
  intros e k. destruct e; try discriminate. intros [= <-]. apply k_bind; [apply k_get|]. intros w0.
  assert (Q : keeps P (bindM (await_task rstep rfinish i) (fun _ : unit => raise (A := unit) CancelledError))).
  { apply k_bind; [exact (k_await_task _ _ P S _)|]. intros; apply k_raise. }
  destruct (task_out w0 i) as [[| |]|]; auto. apply k_raise.
Qed.
Lemma uninterrupted_spec w r w' : uninterrupted KExec w r w' -> J w ->
  J w' /\ (exists l h, envrel w w' l h) /\ (exists t r1, nth_error (w_tasks w') (List.length (w_tasks w)) = Some t /\ t_kind t = KExec /\ t_out t = Some r1
     /\ (r = Ok tt -> r1 = TValue tt /\ mk w' = mk w)
     /\ (forall e, r = Err e -> e = CancelledError \/ (is_Exception e = true /\ r1 = TFail e))).
Proof.
  intros H HJ. unfold RunnerModel.uninterrupted in H.
  assert (KK : ok_env (uninterrupted KExec)).
  { apply ok_of_keeps. apply k_uninterrupted. }
  destruct (KK _ _ _ H) as [JJ EE]. split; [auto|]. split; [exact EE|].
  destruct H as [(i & w0 & [[= ->] ->] & H)|(e & [Q _] & _)]; [|discriminate].
  set (n := List.length (w_tasks w)) in *. set (w0 := mk_world (w_tasks w ++ [mk_task KExec None 0]) (w_x w) (w_hist w)) in *.
  assert (N0 : nth_error (w_tasks w0) n = Some (mk_task KExec None 0)).
  { cbn. rewrite nth_error_app2 by reflexivity. now rewrite Nat.sub_diag. }
  (* the task keeps its kind *)
  set (P := fun w1 : world => exists t, nth_error (w_tasks w1) n = Some t /\ t_kind t = KExec).
  assert (SP : stable rstep rfinish P).
  { unfold P. constructor.
    - intros u ev u' c (t & Nt & K) E. apply env_step_ext in E as (h & (_ & X & _) & _). destruct (X n t Nt) as (t' & N' & K' & _). exists t'. split; [exact N'|congruence].
    - intros u H0. exact H0.
    - intros u i (t & Nt & K). destruct (extends_req u i) as (h & (_ & X & _) & _). destruct (X n t Nt) as (t' & N' & K' & _). exists t'. split; [exact N'|congruence].
    - intros u k (t & Nt & K). exists t. split; [|exact K]. cbn. rewrite nth_error_app1; [exact Nt|]. apply nth_error_Some. congruence. }
  assert (P0 : P w0) by (exists (mk_task KExec None 0); auto).
  assert (FIN : forall u r1, P u -> task_out u n = Some r1 -> exists t, nth_error (w_tasks u) n = Some t /\ t_kind t = KExec /\ t_out t = Some r1).
  { intros u r1 (t & Nt & K) Ou. exists t. unfold task_out in Ou. rewrite Nt in Ou. auto. }
  assert (HIe : forall u e, J u -> task_out u n = Some (TFail e) -> is_Exception e = true).
  { intros u e (_ & _ & (_ & HI) & _) Q. destruct (HI n _ Q) as [_ Z]. eauto. }
  assert (OUT0 : task_out w0 n = None) by (unfold task_out; rewrite N0; reflexivity).
  assert (J0 : J w0) by exact (st_spawn _ _ _ (stable_J o ext) w KExec HJ).
  destruct H as [([] & H1 & ->)|(e & w1 & H1 & H2)].
  - pose proof (k_await_shield _ _ _ SP n _ _ _ P0 H1) as P1.
    unfold await_shield in H1. rewrite OUT0 in H1. destruct H1 as (evs & s & r1 & R & [(_ & Q)|(Sc & _ & O & Q)]); [discriminate|].
    destruct (FIN _ _ P1 O) as (t & Nt & K & Ot). exists t, r1. split; [exact Nt|]. split; [exact K|]. split; [exact Ot|]. split; [|discriminate].
    intros _. destruct r1 as [[]|e|]; try discriminate. split; [reflexivity|].
    apply wait_run_mk in R as (A & _). now apply A.
  - pose proof (k_await_shield _ _ _ SP n _ _ _ P0 H1) as P1. pose proof (k_await_shield _ _ _ (stable_J o ext) n _ _ _ J0 H1) as J1.
    pose proof H1 as H1'. unfold await_shield in H1. rewrite OUT0 in H1. destruct H1 as (evs & s & r1 & R & [(Sc & [= ->])|(Sc & _ & O & Q)]).
    + (* cancelled while shielded *) apply i_getM in H2.
      assert (AT : bindM (await_task rstep rfinish n) (fun _ : unit => raise CancelledError) w1 r w' \/ (task_out w1 n = Some TCancelled /\ r = Err CancelledError /\ w' = w1)).
      { destruct (task_out w1 n) as [[| |]|]; try (left; exact H2). right. destruct H2 as [-> ->]. auto. }
      destruct AT as [AT|(O & -> & ->)].
      * assert (AT2 : exists ra, await_task rstep rfinish n w1 ra w' /\ r = Err (match ra with Ok _ => CancelledError | Err e => e end)).
        { destruct AT as [([] & wb & A & [-> ->])|(e & A & ->)]; [exists (Ok tt)|exists (Err e)]; auto. }
        destruct AT2 as (ra & A & ->). pose proof (k_await_task _ _ _ SP n _ _ _ P1 A) as P2. pose proof (k_await_task _ _ _ (stable_J o ext) n _ _ _ J1 A) as J2.
        assert (D : exists r2, task_out w' n = Some r2 /\ (ra = Err CancelledError \/ ra = task_result r2)).
        { unfold await_task in A. destruct (task_out w1 n) as [r2|] eqn:O.
          - destruct A as [-> ->]. eauto.
          - destruct A as (evs2 & s2 & r2 & R2 & [(Sc2 & ->)|(Sc2 & _ & O2 & ->)]).
            + apply wait_run_target in R2 as [T _]; [|discriminate]. apply T in Sc2. apply task_done_out in Sc2 as (r3 & O3). eauto.
            + eauto. }
        destruct D as (r2 & O2 & RA). destruct (FIN _ _ P2 O2) as (t & Nt & K & Ot). exists t, r2.
        split; [exact Nt|]. split; [exact K|]. split; [exact Ot|]. split; [discriminate|]. intros e [= <-].
        destruct RA as [->| ->]; [now left|]. destruct r2 as [[]|e2|]; cbn; auto. right. eauto.
      * destruct (FIN _ _ P1 O) as (t & Nt & K & Ot). exists t, TCancelled. split; [exact Nt|]. split; [exact K|]. split; [exact Ot|]. split; [discriminate|].
        intros e [= <-]. now left.
    + destruct r1 as [[]|e1|]; cbn in Q; [discriminate| |].
      * injection Q as ->. assert (NC : is_Exception e1 = true) by (eapply HIe; eauto).
        assert (HR : r = Err e1 /\ w' = w1) by (destruct e1; try exact H2; discriminate NC). destruct HR as [-> ->].
        destruct (FIN _ _ P1 O) as (t & Nt & K & Ot). exists t, (TFail e1). split; [exact Nt|]. split; [exact K|]. split; [exact Ot|]. split; [discriminate|].
        intros e [= <-]. auto.
      * injection Q as ->. apply i_getM in H2. rewrite O in H2. destruct H2 as [-> ->].
        destruct (FIN _ _ P1 O) as (t & Nt & K & Ot). exists t, TCancelled. split; [exact Nt|]. split; [exact K|]. split; [exact Ot|]. split; [discriminate|].
        intros e [= <-]. now left.
Qed.

(** The number of tasks. *)
Notation len w := (List.length (w_tasks w)).
Lemma env_step_len (w : world) ev w' c : env_step rstep rfinish w ev = Some (w', c) -> len w' = len w.
Proof.
  destruct ev as [i r|e]; cbn.
  - destruct (nth_error (w_tasks w) i) as [t|]; [|discriminate]. destruct (t_out t); [discriminate|].
    destruct (rfinish (w_x w) t r) as [x'|] eqn:Q; [|discriminate]. intros [= <- <-]. cbn. apply length_upd.
  - destruct (rstep (w_x w) e) as [[x' c']|] eqn:Q; [|discriminate]. now intros [= <- <-].
Qed.
Lemma req_len (w : world) i : len (req w i) = len w.
Proof. unfold req. destruct (task_done w i); [reflexivity|]. cbn. apply length_upd. Qed.
Lemma wait_run_len mode tgt evs : forall (w : world) s w' s', wait_run rstep rfinish mode tgt (w, s) evs = Some (w', s') -> len w' = len w.
Proof.
  induction evs as [|ev evs IH]; intros w s w' s'; cbn [wait_run]; [now intros [= <- <-]|].
  destruct (wait_step _ _ _ _ _ _) as [[w1 s1]|] eqn:E; [|discriminate]. intros R. rewrite (IH _ _ _ _ R). clear IH R.
  destruct ev as [e|i|]; cbn [wait_step] in E.
  - destruct (env_step rstep rfinish w e) as [[w2 []]|] eqn:Q; [| |discriminate]; apply env_step_len in Q.
    + destruct tgt as [i|]; [destruct (task_done w2 i)|]; injection E as <- <-; rewrite ?req_len; auto.
    + now injection E as <- <-.
  - destruct (_ && _); [|discriminate]. destruct (_ || _); now injection E as <- <-.
  - destruct (_ && _); [|discriminate]. now injection E as <- <-.
Qed.
Lemma uninterrupted_len w r w' : uninterrupted KExec w r w' -> len w' = S (len w).
Proof.
  intros H. destruct H as [(i & w0 & [[= ->] ->] & H)|(e & [Q _] & _)]; [|discriminate].
  set (w0 := mk_world (w_tasks w ++ [mk_task KExec None 0]) (w_x w) (w_hist w)) in *.
  assert (L0 : len w0 = S (len w)) by (cbn; rewrite app_length; cbn; lia). rewrite <- L0.
  assert (SH : forall u ru u', await_shield rstep rfinish (len w) u ru u' -> len u' = len u).
  { intros u ru u' Q. unfold await_shield in Q. destruct (task_out u (len w)); [destruct Q as [_ ->]; reflexivity|].
    destruct Q as (evs & s & r1 & R & _). eapply wait_run_len; eauto. }
  assert (AT : forall u ru u', await_task rstep rfinish (len w) u ru u' -> len u' = len u).
  { intros u ru u' Q. unfold await_task in Q. destruct (task_out u (len w)); [destruct Q as [_ ->]; reflexivity|].
    destruct Q as (evs & s & r1 & R & _). eapply wait_run_len; eauto. }
  assert (AT2 : forall u (ru : res unit) u', bindM (await_task rstep rfinish (len w)) (fun _ : unit => raise CancelledError) u ru u' -> len u' = len u).
  { intros u ru u' [([] & u1 & Q & [_ ->])|(e & Q & _)]; eapply AT; eauto. }
  destruct H as [([] & H1 & _)|(e & w1 & H1 & H2)]; apply SH in H1; [exact H1|].
  destruct e; try (destruct H2 as [_ ->]; exact H1). apply i_getM in H2. rewrite <- H1.
  destruct (task_out w1 (len w)) as [[| |]|]; try (eapply AT2; exact H2). destruct H2 as [_ ->]. reflexivity.
Qed.

Definition clean (w : world) : Prop := x_proc (w_x w) = false /\ x_launching (w_x w) = false /\ x_child (w_x w) = false.
Definition calm (w : world) : Prop := x_inside (w_x w) = false /\ x_timer (w_x w) = false /\ x_cancelled (w_x w) = false /\ x_timed_out (w_x w) = false.
Lemma env_clean w w' l h : envrel w w' l h -> J w' -> clean w -> clean w'.
Proof.
  intros E (X & _) (A & B & C).
  assert (L : x_launching (w_x w') = false).
  { destruct (x_launching (w_x w')) eqn:Q; [|reflexivity]. apply (fr_launching _ _ _ (er_frame _ _ _ _ _ E)) in Q. congruence. }
  assert (CH : x_child (w_x w') = false).
  { destruct (x_child (w_x w')) eqn:Q; [|reflexivity]. apply (er_child _ _ _ _ _ E B) in Q. congruence. }
  split; [|now split]. destruct (x_proc (w_x w')) eqn:Q; [|reflexivity]. apply (xi_proc _ X) in Q. congruence.
Qed.
Lemma env_calm w w' l h : envrel w w' l h -> calm w -> calm w'.
Proof.
  intros E (A & B & C & D). destruct (er_frame _ _ _ _ _ E). repeat split; try congruence.
  - destruct (x_timer (w_x w')) eqn:Q; [|reflexivity]. rewrite fr_timer in B; congruence.
  - rewrite fr_timed by exact B. exact D.
Qed.

(** Before the body is entered. *)
Record pre (w w1 : world) : Prop := {
  pre_J : J w1;
  pre_log : exists l, x_log (w_x w1) = x_log (w_x w) ++ l /\ Forall quiet l;
  pre_calm : calm w1;
  pre_launch : x_launching (w_x w1) = false;
  pre_kinds : forall i t, nth_error (w_tasks w1) i = Some t -> t_kind t <> KWaiter;
  pre_keeps : forall P, closed P -> P (w_x w) -> P (w_x w1)
}.

Lemma subprocess_spawn_spec w r w' : subprocess_spawn w r w' -> J w -> clean w -> calm w -> w_tasks w = [] ->
  pre w w' /\ (r = Ok tt -> x_proc (w_x w') = true /\ mk w' = mk w)
  /\ (forall e, r = Err e -> e = CancelledError \/ is_Exception e = true).
Proof.
  intros H HJ HC HM HT. unfold RunnerModel.subprocess_spawn in H.
  destruct H as [([] & w1 & H1 & H)|(e & H1 & _)]; apply i_getx in H1; rewrite (proj1 HC) in H1; destruct H1 as [Q ->]; [clear Q|discriminate].
  assert (PRE : forall w1 l h, envrel w w1 l h -> KP w w1 -> J w1 -> len w1 = len w -> clean w1 /\ pre w w1 /\ w_tasks w1 = []).
  { intros w1 l h E KP1 J1 L1. assert (C1 : clean w1) by (eapply env_clean; eauto). assert (M1 : calm w1) by (eapply env_calm; eauto).
    assert (T1 : w_tasks w1 = []) by (rewrite HT in L1; now apply length_zero_iff_nil).
    split; [exact C1|]. split; [|exact T1]. constructor; auto.
    - exists l. split; [exact (fr_log _ _ _ (er_frame _ _ _ _ _ E))|]. apply (er_quiet _ _ _ _ _ E). apply HM.
    - apply C1.
    - intros i t. rewrite T1. destruct i; discriminate.
    - intros P CP. exact (KP1 _ (closed_stable _ CP)). }
  (* open_streams *)
  assert (STEP1 : exists r1 w1 l h, envrel w w1 l h /\ KP w w1 /\ J w1 /\ len w1 = len w /\ (mk w <= mk w1)%nat /\
    ((r1 = Ok tt /\ mk w1 = mk w /\ bindM (await_yield rstep rfinish) (fun _ => bindM (modx (set_launching true)) (fun _ => uninterrupted KExec)) w1 r w')
     \/ (exists e, r1 = Err e /\ (e = CancelledError \/ is_Exception e = true) /\ r = Err e /\ w' = w1))).
  { assert (ANY : forall ra wa, when use_pty (await_any o ext) w ra wa -> exists l h, envrel w wa l h /\ KP w wa /\ J wa /\ len wa = len w /\ (mk w <= mk wa)%nat
       /\ (ra = Ok tt -> mk wa = mk w) /\ (forall e, ra = Err e -> e = CancelledError \/ is_Exception e = true)).
    { intros ra wa HA. unfold when in HA. destruct use_pty.
      - destruct (ok_of_keeps (await_any o ext) k_await_any _ _ _ HA) as [JA (l & h & E)]. exists l, h. destruct HA as (evs & s & R & Z).
        destruct (wait_run_mk _ _ _ _ _ _ R) as (A & _ & B). split; [exact E|]. split; [intros P S Q; eapply wait_run_keeps; eauto|]. split; [auto|]. split; [eapply wait_run_len; eauto|]. split; [exact B|].
        destruct (s_canc s) eqn:Sc; [subst ra; split; [discriminate|intros e [= <-]; now left]|]. split; [intros _; now apply A|]. intros e Qe. right. eauto.
      - destruct HA as [-> ->]. exists [], []. split; [apply envrel_refl|]. split; [intros P S Q; exact Q|]. split; [exact HJ|]. split; [reflexivity|]. split; [lia|]. split; [auto|discriminate]. }
    destruct H as [([] & w1 & H1 & H)|(e & H1 & ->)]; apply ANY in H1 as (l & h & E & KP1 & J1 & L1 & B & A & Er).
    - exists (Ok tt), w1, l, h. split; [exact E|]. split; [exact KP1|]. split; [exact J1|]. split; [exact L1|]. split; [exact B|]. left. split; [reflexivity|]. split; [auto|exact H].
    - exists (Err e), w', l, h. split; [exact E|]. split; [exact KP1|]. split; [exact J1|]. split; [exact L1|]. split; [exact B|]. right. exists e. auto. }
  destruct STEP1 as (r1 & w1 & l & h & E1 & KP1 & J1 & L1 & B1 & [(-> & Mk1 & H1)|(e & -> & Ee & -> & ->)]).
  2: { destruct (PRE _ _ _ E1 KP1 J1 L1) as (_ & P & _). split; [exact P|]. split; [discriminate|]. intros e' [= <-]. exact Ee. }
  clear H. (* the yield *)
  destruct H1 as [([] & w2 & H1 & H2)|(e & H1 & ->)].
  - destruct (ok_of_keeps (await_yield rstep rfinish) (fun P S => k_await_yield _ _ P S) _ _ _ H1) as [JA (l2 & h2 & E2)].
    destruct H1 as (evs & s & R & Z). destruct (wait_run_mk _ _ _ _ _ _ R) as (A & _ & B). destruct (s_canc s) eqn:Sc; [discriminate|].
    destruct (A eq_refl) as [_ Mk2]. pose proof (wait_run_len _ _ _ _ _ _ _ R) as L2.
    pose proof (envrel_trans _ _ _ _ _ _ _ E1 E2) as E. assert (J2 : J w2) by auto.
    assert (KP2 : KP w w2) by (eapply KP_trans; [exact KP1|intros P S Q; eapply wait_run_keeps; eauto]).
    destruct (PRE _ _ _ E KP2 J2) as (C2 & P2 & T2); [lia|].
    apply i_modx in H2. set (w3 := upd_x w2 (set_launching true)) in *.
    assert (J3 : J w3).
    { destruct J2 as (X & T & Mk & Tm). split; [|split; [|split]].
      - apply XI_launching; [exact X|intros _; apply C2|discriminate].
      - intros i t. cbn. rewrite T2. destruct i; discriminate.
      - exact Mk.
      - exact Tm. }
    destruct (uninterrupted_spec _ _ _ H2 J3) as (J4 & (l4 & h4 & E4) & t & r4 & Nt & K & Ot & OK4 & ER4).
    pose proof (uninterrupted_len _ _ _ H2) as L4. cbn in L4. rewrite T2 in L4. cbn in L4. cbn in Nt. rewrite T2 in Nt. cbn in Nt.
    assert (W4 : w_tasks w' = [t]). { destruct (w_tasks w') as [|t0 [|]]; try discriminate. now injection Nt as ->. }
    assert (M4 : calm w'). { eapply env_calm; [exact E4|]. exact (pre_calm _ _ P2). }
    assert (TT := proj1 (proj2 J4) 0%nat t). rewrite W4 in TT. specialize (TT eq_refl). rewrite K, Ot in TT.
    split; [|split].
    + constructor; auto.
      * destruct (pre_log _ _ P2) as (la & Ea & Fa). exists (la ++ l4). split.
        -- rewrite (fr_log _ _ _ (er_frame _ _ _ _ _ E4)). cbn. rewrite Ea. now rewrite app_assoc.
        -- apply Forall_app. split; [exact Fa|]. apply (er_quiet _ _ _ _ _ E4). cbn. apply (pre_calm _ _ P2).
      * destruct r4 as [[]|e4|]; apply TT.
      * intros i t'. rewrite W4. destruct i as [|[|]]; cbn; try discriminate. intros [= <-]. congruence.
      * intros P CP Q. pose proof (k_uninterrupted _ (closed_stable _ CP)) as KU. eapply KU; [|exact H2]. cbn. apply (cl_launching _ CP).
        exact (KP2 _ (closed_stable _ CP) Q).
    + intros Q. destruct (OK4 Q) as [-> Q2]. split; [apply TT|]. rewrite Q2. change (mk w3) with (mk w2). lia.
    + intros e Q. destruct (ER4 e Q) as [->|(X & _)]; auto.
  - destruct (ok_of_keeps (await_yield rstep rfinish) (fun P S => k_await_yield _ _ P S) _ _ _ H1) as [JA (l2 & h2 & E2)].
    destruct H1 as (evs & s & R & Z). pose proof (wait_run_len _ _ _ _ _ _ _ R) as L2.
    pose proof (envrel_trans _ _ _ _ _ _ _ E1 E2) as E. assert (J2 : J w') by auto.
    assert (KP2 : KP w w') by (eapply KP_trans; [exact KP1|intros P S Q; eapply wait_run_keeps; eauto]).
    destruct (PRE _ _ _ E KP2 J2) as (C2 & P2 & T2); [lia|]. split; [exact P2|]. split; [discriminate|]. intros e' [= <-].
    destruct (s_canc s); [injection Z as ->; now left|discriminate].
Qed.

(** Adding tasks. *)
Definition added (w : world) (k : rkind) : world :=
  mk_world (w_tasks w ++ [mk_task k None 0]) (set_tasks (x_tasks (w_x w) ++ [len w]) (w_x w)) (w_hist w).
Lemma add_task_run k w r w' : add_task k w r w' -> r = Ok tt /\ w' = added w k.
Proof.
  intros [(i & w1 & [Q ->] & H)|(e & [Q _] & _)]; [|discriminate]. injection Q as ->. destruct H as [-> ->]. auto.
Qed.
Lemma added_J w k : J w -> J (added w k).
Proof.
  intros HJ. pose proof (st_spawn _ _ _ (stable_J o ext) w k HJ) as (X & T & Mk & Tm). split; [|split; [|split]].
  - now apply XI_tasks.
  - exact (TI_x ext _ (set_tasks (x_tasks (w_x w) ++ [len w]) (w_x w)) T eq_refl eq_refl eq_refl eq_refl).
  - exact Mk.
  - exact Tm.
Qed.
Lemma added_pre w0 w k : pre w0 w -> k <> KWaiter -> pre w0 (added w k).
Proof.
  intros P K. destruct P. constructor; auto.
  - now apply added_J.
  - intros i t. cbn. destruct (Nat.lt_ge_cases i (len w)) as [L|L].
    + rewrite nth_error_app1 by exact L. apply pre_kinds0.
    + rewrite nth_error_app2 by exact L. destruct (i - _)%nat as [|n]; cbn; [intros [= <-]; exact K|destruct n; discriminate].
  - intros P CP Q. cbn. apply (cl_tasks _ CP). exact (pre_keeps0 P CP Q).
Qed.
Lemma setup_streams_spec w0 w r w' : setup_streams w r w' -> pre w0 w -> pre w0 w' /\ x_proc (w_x w') = x_proc (w_x w) /\ mk w' = mk w
  /\ (forall e, r = Err e -> is_Exception e = true).
Proof.
  intros (n & H). revert w H. induction n as [|n IH]; intros w H P.
  - apply i_ret in H. destruct H as [-> E]. auto.
  - destruct H as [([] & w1 & H1 & H2)|(e & H1 & ->)].
    + destruct H1 as [([] & w2 & H1 & H3)|(e & _ & Q)]; [|discriminate]. apply add_task_run in H1 as [_ ->].
      destruct (IH (added w KIO)) as (A & B & C & D).
      * left. exists tt, w1. auto.
      * apply added_pre; [exact P|discriminate].
      * auto.
    + destruct H1 as [([] & w2 & H1 & H3)|(e' & H1 & [= <-])]; apply add_task_run in H1 as [Q ->]; [|discriminate].
      destruct (IH (added w KIO)) as (A & B & C & D).
      * right. exists e. auto.
      * apply added_pre; [exact P|discriminate].
      * auto.
Qed.

Definition entered (w : world) : world :=
  upd_x (added w KWaiter) (fun x => set_inside true (match o_timeout o with Some _ => set_timer true x | None => x end)).
Inductive start_case (w : world) (r : res unit) (w' : world) : Prop :=
| sc_ok w1 : pre w w1 -> x_proc (w_x w1) = true -> mk w1 = mk w -> w' = entered w1 -> r = Ok tt -> start_case w r w'
| sc_err e w1 rk : pre w w1 -> (e = CancelledError \/ is_Exception e = true) ->
    (if x_proc (w_x w1) then kill (if is_cancelled e then cancelled_now w1 else w1) rk w'
     else rk = Ok tt /\ w' = (if is_cancelled e then cancelled_now w1 else w1)) ->
    r = Err (match rk with Ok _ => e | Err e' => e' end) -> start_case w r w'.
Lemma start_cases w r w' : start w r w' -> J w -> clean w -> calm w -> w_tasks w = [] -> x_tasks (w_x w) = [] -> start_case w r w'.
Proof.
  intros H HJ HC HM HT HX. unfold RunnerModel.start in H.
  destruct H as [([] & w0 & H1 & H)|(e & H1 & _)]; apply i_getx in H1; rewrite HX in H1; destruct H1 as [Q ->]; [clear Q|discriminate].
  assert (PRE0 : pre w w).
  { constructor; auto; [exists []; split; [now rewrite app_nil_r|constructor]|apply HC|]. intros i t. rewrite HT. destruct i; discriminate. }
  set (body := bindM setup (fun _ => bindM subprocess_spawn (fun _ => bindM (bindM (getx x_proc) assertM) (fun _ => setup_streams)))) in *.
  assert (BODY : forall rb wb, body w rb wb -> pre w wb /\ (rb = Ok tt -> x_proc (w_x wb) = true /\ mk wb = mk w)
      /\ (forall e, rb = Err e -> e = CancelledError \/ is_Exception e = true)).
  { intros rb wb [([] & w1 & [-> _] & HB)|(e & [-> HE] & ->)].
    2: { split; [exact PRE0|]. split; [discriminate|]. intros e' [= <-]. right. auto. }
    destruct HB as [([] & w1 & H1 & HB)|(e & H1 & ->)]; destruct (subprocess_spawn_spec _ _ _ H1 HJ HC HM HT) as (P1 & O1 & E1).
    2: { split; [exact P1|]. split; [discriminate|]. intros e' [= <-]. auto. }
    destruct (O1 eq_refl) as [PR1 Mk1].
    destruct HB as [([] & w2 & H2 & HB)|(e & H2 & ->)]; apply i_getx in H2; rewrite PR1 in H2; destruct H2 as [Q ->]; [clear Q|discriminate].
    destruct (setup_streams_spec _ _ _ _ HB P1) as (P2 & PR2 & Mk2 & E2). split; [exact P2|]. split; [intros _; split; congruence|]. intros e Q. right. eauto. }
  destruct H as [([] & w1 & H1 & H)|(e & H1 & ->)].
  - destruct H1 as [([] & HB & _)|(e & w2 & HB & HH)].
    + destruct (BODY _ _ HB) as (P1 & O1 & _). destruct (O1 eq_refl) as [PR1 Mk1]. apply (sc_ok _ _ _ w1); auto.
      * destruct H as [([] & w2 & H2 & H)|(e & H2 & _)]; apply add_task_run in H2 as [Q ->]; [|discriminate].
        destruct H as [([] & w3 & H3 & H)|(e & H3 & _)].
        -- destruct H as [_ ->]. destruct H3 as [([] & w4 & H4 & H5)|(e & H4 & Q3)]; [|discriminate].
           apply i_getx in H4. cbn in H4. rewrite (proj1 (proj2 (pre_calm _ _ P1))) in H4. destruct H4 as [_ ->].
           unfold entered. unfold when in H5. destruct (o_timeout o); destruct H5 as [_ ->]; reflexivity.
        -- exfalso. destruct H3 as [([] & w4 & H4 & H5)|(e' & H4 & Q3)].
           ++ unfold when in H5. destruct (o_timeout o); destruct H5 as [Q5 _]; discriminate.
           ++ apply i_getx in H4. cbn in H4. rewrite (proj1 (proj2 (pre_calm _ _ P1))) in H4. destruct H4 as [Q4 _]. discriminate.
      * destruct H as [([] & w2 & H2 & H)|(e & H2 & _)]; apply add_task_run in H2 as [Q ->]; [|discriminate].
        destruct H as [([] & w3 & H3 & H)|(e & H3 & ->)].
        -- destruct H as [-> _]. reflexivity.
        -- exfalso. destruct H3 as [([] & w4 & H4 & H5)|(e' & H4 & Q3)].
           ++ unfold when in H5. destruct (o_timeout o); destruct H5 as [Q5 _]; discriminate.
           ++ apply i_getx in H4. cbn in H4. rewrite (proj1 (proj2 (pre_calm _ _ P1))) in H4. destruct H4 as [Q4 _]. discriminate.
    + exfalso. destruct (is_Exception e || is_cancelled e).
      * destruct HH as [([] & w3 & _ & HH)|(e' & _ & Q)]; [|discriminate]. destruct HH as [([] & w4 & _ & [Q _])|(e' & _ & Q)]; discriminate.
      * destruct HH as [Q _]. discriminate.
  - destruct H1 as [([] & _ & Q)|(e1 & w1 & HB & HH)]; [discriminate|]. destruct (BODY _ _ HB) as (P1 & _ & E1). specialize (E1 e1 eq_refl).
    assert (EX : is_Exception e1 || is_cancelled e1 = true) by (destruct E1 as [->|Q]; [reflexivity|rewrite Q; reflexivity]).
    rewrite EX in HH.
    assert (HH2 : bindM (bindM (getx x_proc) (fun p => when p kill)) (fun _ => raise (A := unit) e1) (if is_cancelled e1 then cancelled_now w1 else w1) (Err e) w').
    { destruct HH as [([] & w2 & H2 & H3)|(e' & H2 & _)]; [|destruct (is_cancelled e1); destruct H2 as [Q _]; discriminate].
      destruct (is_cancelled e1); destruct H2 as [_ ->]; exact H3. }
    apply i_then_raise in HH2 as (rk & HK & RK). apply i_getx in HK.
    assert (PP : x_proc (w_x (if is_cancelled e1 then cancelled_now w1 else w1)) = x_proc (w_x w1)) by (destruct (is_cancelled e1); reflexivity).
    rewrite PP in HK. apply (sc_err _ _ _ e1 w1 rk); auto.
    + destruct (x_proc (w_x w1)); [exact HK|]. destruct HK as [-> ->]. auto.
    + destruct rk as [[]|e']; exact RK.
Qed.

(** __aenter__ from a fresh run. *)
Definition begun : world := upd_x fresh (audit o PStart).
Definition failed_start (w : world) (e : exn) : world := upd_x w (fun x => audit o (PStop (Some e)) (set_timer false x)).
Lemma begun_J : J begun.
Proof.
  split; [apply XI_audit; [apply XI0|discriminate]|]. split; [intros [|] t; discriminate|]. split; [split|].
  - unfold MK, begun, audit. cbn. destruct (o_audit_callback o); reflexivity.
  - intros [|] r; discriminate.
  - intros [|] t; discriminate.
Qed.
Lemma begun_x : x_proc (w_x begun) = false /\ x_launching (w_x begun) = false /\ x_child (w_x begun) = false /\ x_inside (w_x begun) = false
  /\ x_timer (w_x begun) = false /\ x_cancelled (w_x begun) = false /\ x_timed_out (w_x begun) = false /\ x_tasks (w_x begun) = [].
Proof. unfold begun, audit. cbn. destruct (o_audit_callback o); cbn; auto 10. Qed.
Inductive aenter_case (r : res unit) (w' : world) : Prop :=
| ec_ok w1 : pre begun w1 -> x_proc (w_x w1) = true -> mk w1 = 0%nat -> w' = entered w1 -> r = Ok tt -> aenter_case r w'
| ec_err e w1 : start_case begun (Err e) w1 -> w' = failed_start w1 e -> (exists e', r = Err e') ->
    (x_cancelled (w_x w1) && o_catch_cancelled o = false -> r = Err e) ->
    (r = Err e \/ runner_result (returncode (w_x w')) out_bytes err_bytes enc o (x_cancelled (w_x w')) (x_timed_out (w_x w')) true = match r with Err e' => Err e' | Ok _ => Err CancelledError end) -> aenter_case r w'.
Lemma aenter_cases r w' : aenter fresh r w' -> aenter_case r w'.
Proof.
  intros H. unfold RunnerModel.aenter in H. apply i_modx in H. fold begun in H.
  destruct begun_x as (B1 & B2 & B3 & B4 & B5 & B6 & B7 & B8).
  assert (SC : forall rs ws, start begun rs ws -> start_case begun rs ws).
  { intros rs ws HS. apply start_cases; [exact HS|apply begun_J|split; auto|repeat split; auto|reflexivity|exact B8]. }
  assert (FIN : forall u ru u', bindM (getx (fun x => x_cancelled x && o_catch_cancelled o)) (fun b : bool => if b then bindM (run_result o out_bytes err_bytes enc true) (fun _ => ret tt) else ret tt) u ru u' ->
     u' = u /\ (x_cancelled (w_x u) && o_catch_cancelled o = false -> ru = Ok tt)
     /\ forall e, ru = Err e -> runner_result (returncode (w_x u)) out_bytes err_bytes enc o (x_cancelled (w_x u)) (x_timed_out (w_x u)) true = Err e).
  { intros u ru u' Q. apply i_getx in Q. destruct (x_cancelled (w_x u) && o_catch_cancelled o).
    - destruct Q as [(v & u1 & Q & [-> ->])|(e & Q & ->)]; apply i_getx in Q; destruct (runner_result _ _ _ _ _ _ _ _) as [v'|e']; destruct Q as [Q ->]; try discriminate.
      + split; [reflexivity|]. split; discriminate.
      + injection Q as ->. split; [reflexivity|]. split; [discriminate|]. intros e [= <-]. reflexivity.
    - destruct Q as [-> ->]. split; [reflexivity|]. split; [auto|discriminate]. }
  destruct H as (r1 & w1 & H1 & HF).
  destruct H1 as [([] & H1 & ->)|(e & w2 & H1 & H2)]; apply SC in H1.
  - assert (W : w' = w1) by (destruct HF as [(HF & _)|(e & HF & _)]; apply FIN in HF; tauto). subst w'.
    destruct H1 as [wa P PR Mk E _|e wa rk _ _ _ Q]; [|discriminate].
    assert (CN : x_cancelled (w_x w1) = false).
    { subst w1. unfold entered. cbn. destruct (o_timeout o); cbn; apply (pre_calm _ _ P). }
    apply (ec_ok _ _ wa); auto.
    + rewrite Mk. unfold mk, begun, audit. cbn. destruct (o_audit_callback o); reflexivity.
    + destruct HF as [(HF & ->)|(e & HF & ->)]; [reflexivity|]. apply FIN in HF as (_ & A & _). rewrite CN in A. specialize (A eq_refl). discriminate.
  - apply i_modx in H2. apply i_modx in H2. destruct H2 as [-> ->].
    change (upd_x (upd_x w2 (set_timer false)) (audit o (PStop (Some e)))) with (failed_start w2 e) in HF.
    assert (CE : x_cancelled (w_x (failed_start w2 e)) = x_cancelled (w_x w2)) by (cbn; rewrite audit_cancelled; reflexivity).
    apply (ec_err _ _ e w2); auto.
    + destruct HF as [(HF & _)|(e' & HF & _)]; apply FIN in HF; tauto.
    + destruct HF as [(HF & ->)|(e' & HF & ->)]; eauto.
    + intros Q. destruct HF as [(HF & ->)|(e' & HF & ->)]; [reflexivity|]. apply FIN in HF as (_ & A & _). rewrite CE in A. specialize (A Q). discriminate.
    + destruct HF as [(HF & ->)|(e' & HF & ->)]; [now left|]. right. apply FIN in HF as (-> & _ & A). exact (A e' eq_refl).
Qed.
End R.
