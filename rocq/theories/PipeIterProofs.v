From Verif Require Import AsyncSpec AsyncProofs HarvestModel HarvestSpec HarvestProofs HarvestProofs2 AsyncInv
  PipeRunnerModel PipeRunnerProofs PipeRunnerProofs2 CopySpec CopyProofs CopyProofs2 Utf8Proofs PipeIterModel.
Open Scope nat_scope.

Lemma pbody_trans a b c : body_steps a b -> body_steps b c -> body_steps a c.
Proof. induction 1; intros; auto. eapply bs_env; eauto. Qed.

Lemma pwait_steps evs : forall (w : world) s w' s', s_cbs s = [] -> s_armed s = false ->
  wait_run pstep pfinish ALL_COMPLETED None (w, s) evs = Some (w', s') -> body_steps w w'
  /\ exists h, extends w h w' /\ (s_canc s' = true <-> s_canc s = true \/ In HCancel h).
Proof.
  induction evs as [|ev evs IH]; intros w s w' s' C A; cbn [wait_run].
  - intros [= <- <-]. split; [apply bs_refl|]. exists []. split; [apply extends_refl|]. cbn. tauto.
  - destruct (wait_step _ _ _ _ _ _) as [[w1 s1]|] eqn:E; [|discriminate]. intros H.
    destruct ev as [e|i|]; cbn [wait_step] in E.
    + destruct (env_step pstep pfinish w e) as [[w2 b]|] eqn:Q; [|discriminate].
      assert (w2 = w1 /\ s_cbs s1 = [] /\ s_armed s1 = false /\ s_canc s1 = s_canc s || b) as (-> & C1 & A1 & K1).
      { destruct b; injection E as <- <-; cbn; rewrite ?orb_true_r, ?orb_false_r; auto. }
      destruct (IH _ _ _ _ C1 A1 H) as (B & h & X & Y). split; [eapply bs_env; eauto|].
      destruct (env_step_ext _ _ _ _ _ _ Q) as (h1 & E1 & _ & _ & D). exists (h1 ++ h). split; [eapply extends_trans; eauto|].
      rewrite Y, K1, orb_true_iff, in_app_iff, <- (cancels_In h1), D. destruct b; intuition (try discriminate; try lia).
    + rewrite C in E. discriminate.
    + rewrite A in E. discriminate.
Qed.
Lemma psuspended_steps b w w' : psuspended b w w' -> body_steps w w' /\ exists h, extends w h w' /\ (b = true -> In HCancel h).
Proof.
  intros (evs & s & H & E). destruct (fun A B => pwait_steps _ _ _ _ _ A B H) as (B & h & X & Y); [reflexivity..|]. split; [exact B|]. exists h. split; [exact X|].
  subst b. intros Q. apply Y in Q as [Q|Q]; [discriminate|exact Q].
Qed.
Lemma pbody_ext w w' : body_steps w w' -> exists h, extends w h w'.
Proof.
  induction 1 as [w|w ev w1 c w2 E _ (h & IH)]; [exists []; apply extends_refl|].
  destruct (env_step_ext _ _ _ _ _ _ E) as (h1 & E1 & _). exists (h1 ++ h). eapply extends_trans; eauto.
Qed.
Lemma piter_loop_steps dec o r w ls rb w' : piter_loop dec o r w ls rb w' -> body_steps w w'.
Proof.
  induction 1; try (eapply psuspended_steps; eauto; fail).
  - eapply pbody_trans; [eapply psuspended_steps; eauto|]. eapply pbody_trans; eauto.
  - eapply pbody_trans; [eapply psuspended_steps; eauto|]. assumption.
Qed.
Lemma piter_block_steps dec o st w ls rb w' : piter_block dec o st w ls rb w' -> body_steps w w'.
Proof. destruct st; [apply piter_loop_steps|]. intros (_ & _ & ->). apply bs_refl. Qed.

(** The lines that were yielded, and how the loop ended. *)
Lemma piter_loop_lines dec o r w ls rb w' : piter_loop dec o r w ls rb w' ->
  exists ds rest, split_lines (sr_data r) = ds ++ rest /\ map_opt (dec (o_encoding o)) ds = Some ls
  /\ match rb with
     | Ok _ => rest = [] /\ sr_end r = EndEof
     | Err e => (e = CancelledError /\ exists h, extends w h w' /\ In HCancel h) \/ (e = GeneratorExit /\ ls <> []) \/ e = UnicodeError
                \/ (exists m, e = ValueError m) \/ Some e = end_exn (sr_end r)
     end.
Proof.
  induction 1 as [r w w' H|r r' w w' H E|r r' e w w' H E|r r' d w w' H E N D|r r' d t ls rb w w1 w2 w' H E N D B _ IH|r r' d t w w1 w2 H E N D B].
  - exists [], (split_lines (sr_data r)). split; [reflexivity|]. split; [reflexivity|]. left. split; [reflexivity|]. destruct (psuspended_steps _ _ _ H) as (_ & h & X & Y). eauto.
  - pose proof (sreadline_spec LIMIT r) as SL. cbn zeta in SL. rewrite E in SL. destruct SL as [S1 S2].
    exists [], []. rewrite S1. auto.
  - pose proof (sreadline_spec LIMIT r) as SL. cbn zeta in SL. rewrite E in SL.
    exists [], (split_lines (sr_data r)). split; [reflexivity|]. split; [reflexivity|]. destruct SL as [(m & l & -> & _)|(Q & _)]; eauto 8.
  - exists [], (split_lines (sr_data r)). auto 8.
  - pose proof (sreadline_spec LIMIT r) as SL. cbn zeta in SL. rewrite E in SL. destruct d as [|x d]; [congruence|]. destruct SL as (S1 & _ & S3 & _).
    destruct IH as (ds & rest & Q1 & Q2 & Q3). exists ((x :: d) :: ds), rest. split; [cbn; congruence|].
    split; [cbn [map_opt]; now rewrite D, Q2|]. rewrite <- S3. destruct rb as [u|e]; [exact Q3|].
    destruct Q3 as [(-> & h & Q3 & Q4)|[(-> & Q3)|Q3]]; [|right; left; split; [reflexivity|discriminate]|right; right; exact Q3].
    left. split; [reflexivity|]. destruct (psuspended_steps _ _ _ H) as (_ & h1 & X1 & _). destruct (pbody_ext _ _ B) as (h2 & X2).
    exists (h1 ++ h2 ++ h). split; [eapply extends_trans; [exact X1|eapply extends_trans; eauto]|]. rewrite !in_app_iff. auto.
  - pose proof (sreadline_spec LIMIT r) as SL. cbn zeta in SL. rewrite E in SL. destruct d as [|x d]; [congruence|]. destruct SL as (S1 & _ & S3 & _).
    exists [x :: d], (split_lines (sr_data r')). split; [exact S1|]. split; [cbn [map_opt]; now rewrite D|]. right; left. split; [reflexivity|discriminate].
Qed.

(** Iterating or prompting is a special case of `async with` on the pipeline. *)
Lemma pleave_with_pipe n setup w0 w1 rb r w' : aenter n setup true pw0 (Ok tt) w0 -> body_steps w0 w1 -> pleave rb w1 r w' ->
  with_pipe n setup true any_body pw0 r w'.
Proof. intros H B L. left. exists tt, w0. split; [exact H|]. exists rb, w1. split; [exact B|]. destruct rb; exact L. Qed.
Lemma piterate_with_pipe dec o n setup st ls rb r w' : piterate dec o n setup st ls rb r w' -> with_pipe n setup true any_body pw0 r w'.
Proof.
  intros [e w1 H|w0 w1 ls0 rb0 r0 w2 H1 H2 H3]; [right; exists e; auto|]. eapply pleave_with_pipe; eauto. eapply piter_block_steps; eauto.
Qed.

(** Why harvest_results raised: a task has not ended, or it is the exception of a task. *)
Definition why (ts : list nat) (w' : world) (e : exn) : Prop :=
  (exists i, In i ts /\ task_done w' i = false) \/ (exists i, In i ts /\ task_out w' i = Some (TFail e) /\ reraised (TFail (V := pval) e)).
Lemma harvest_why ts (w : world) e w' : harvest_results (map AwTask ts) false w (Err e) w' -> ts <> [] -> why ts w' e.
Proof.
  intros H NE. pose proof (map_ne (AwTask (K := pkind)) ts NE) as NE'.
  destruct (harvest_results_facts _ _ _ _ _ _ _ H NE') as (w0 & rw & h1 & h2 & w1 & E0 & O & F & R). rewrite managed_tasks in F, R.
  assert (C : ((exists os, Err e = Ok (match rw with Ok _ => false | _ => true end, os)
             /\ Forall2 (fun i o => task_out w' i = Some o /\ ~ reraised o) ts os)
         \/ (exists e0 i o, Err (A := bool * list (tout pval)) e = Err e0 /\ In i ts /\ task_out w' i = Some o /\ o = TFail e0 /\ reraised o)
         \/ (Err (A := bool * list (tout pval)) e = Err InvalidStateError /\ exists i, In i ts /\ task_done w' i = false)) -> why ts w' e).
  { intros [(os & Q & _)|[(e0 & i & o & [= <-] & Hi & T & -> & RR)|(_ & i & Hi & D)]]; [discriminate|right; eauto|left; eauto]. }
  destruct rw as [[]|e1]; [now apply C|].
  destruct (hf_errs _ _ _ _ _ _ _ _ _ F e1 eq_refl) as [->|[->| ->]]; [|now apply C|].
  - destruct (hf_to _ _ _ _ _ _ _ _ _ F eq_refl) as (Q & _). discriminate.
  - destruct (hf_fail _ _ _ _ _ _ _ _ _ F eq_refl) as (_ & (i & Hi & D) & _). left. eauto.
Qed.

(** Leaving the block, exhaustively. *)
Definition stopped_by (n : nat) (w' : world) (r : res unit) : Prop :=
  exists e, r = Err e /\ why (seq 2 n) w' e
    /\ (e = cancel_failed \/ (exists i, In i (seq 2 n) /\ task_out w' i = Some (TFail e) /\ reraised (TFail (V := pval) e))
    \/ (e = InvalidStateError /\ cancels (w_hist w') >= 2)).
Lemma wait_err_results kill w e w' : wait kill w (Err e) w' -> p_results (w_x w) = None -> p_tasks (w_x w) <> [] ->
  p_results (w_x w') = None /\ why (p_tasks (w_x w)) w' e.
Proof.
  intros H RN TN. unfold wait in H. apply b_inv in H as [([] & w1 & H1 & H)|(e1 & H1 & _)].
  - apply b_inv in H1 as [(a & w2 & [Q ->] & H1)|(e' & [Q _] & _)]; [|discriminate]. injection Q as ->. rewrite RN in H1. destruct H1 as [_ ->].
    apply b_inv in H as [(ts & w2 & [Q ->] & H)|(e' & [Q _] & _)]; [|discriminate]. injection Q as ->.
    apply b_inv in H as [([] & w1 & H1 & H)|(e' & H1 & _)].
    + assert (X : w_x w1 = w_x w).
      { destruct kill; cbn [when] in H1; [now apply for_cancel_spec in H1 as (_ & _ & X & _)|destruct H1 as [_ ->]; reflexivity]. }
      apply b_inv in H as [([c os] & w2 & H2 & H)|(e' & H2 & Q)].
      * exfalso. apply b_inv in H as [([] & w3 & [_ ->] & H)|(e' & [Q _] & _)]; [|discriminate].
        apply b_inv in H as [([] & w3 & _ & [Q _])|(e' & H1' & _)]; [discriminate|]. destruct c; cbn [fst when] in H1'; destruct H1'; discriminate.
      * pose proof (k_harvest_results _ _ _ (same_px_stable (w_x w1)) _ _ _ _ _ (same_px_refl _) H2) as (_ & _ & P & _). split; [congruence|]. injection Q as <-.
        eapply harvest_why; eauto.
    + destruct kill; cbn [when] in H1; [apply for_cancel_spec in H1 as (Q & _); discriminate|destruct H1; discriminate].
  - apply b_inv in H1 as [(a & w2 & [Q ->] & H1)|(e' & [Q _] & _)]; [|discriminate]. injection Q as ->. rewrite RN in H1. destruct H1; discriminate.
Qed.
Lemma aexit_err_results exc w e w' : aexit exc w (Err e) w' -> p_results (w_x w) = None -> p_tasks (w_x w) <> [] ->
  p_results (w_x w') = None /\ why (p_tasks (w_x w)) w' e.
Proof.
  intros H RN TN. assert (G : forall e1 u, finish exc w (Err e1) u -> p_results (w_x u) = None /\ why (p_tasks (w_x w)) u e1).
  { intros e1 u G. destruct exc as [e0|]; cbn [finish] in G.
    - apply b_inv in G as [([] & w1 & G1 & G)|(e' & G1 & _)]; [|destruct (is_cancelled e0); cbn in G1; destruct G1; discriminate].
      assert (X1 : p_results (w_x w1) = None /\ p_tasks (w_x w1) = p_tasks (w_x w)) by (destruct (is_cancelled e0); cbn in G1; destruct G1 as [_ ->]; auto).
      destruct X1 as [X1 X2]. rewrite <- X2 in *.
      apply b_inv in G as [([] & w2 & G2 & [Q _])|(e' & G2 & Q)]; [discriminate|]. injection Q as <-. now apply (wait_err_results _ _ _ _ G2).
    - apply b_inv in G as [([] & w2 & G2 & [Q _])|(e' & G2 & Q)]; [discriminate|]. injection Q as <-. now apply (wait_err_results _ _ _ _ G2). }
  destruct H as [(a & _ & Q)|(e1 & w1 & H & H')]; [discriminate|]. destruct (is_cancelled e1).
  - apply b_inv in H' as [([] & w2 & _ & [Q _])|(e' & [Q _] & _)]; discriminate.
  - destruct H' as [Q ->]. injection Q as <-. eapply G; eauto.
Qed.
Lemma pleave_spec n h w rb r w' : n >= 2 -> running n true h w -> pleave rb w r w' ->
  exists h', extends w h' w'
  /\ ((exists os c, p_results (w_x w') = Some os /\ p_cancelled (w_x w') = c
        /\ Forall2 (fun i o => task_out w' i = Some o /\ ~ reraised o) (seq 2 n) os
        /\ (c = true -> rb = Err CancelledError \/ In HCancel h')
        /\ (rb = Err CancelledError -> c = true)
        /\ r = match rb with Ok _ => Ok tt | Err e => if c then Ok tt else Err e end)
      \/ (p_results (w_x w') = None /\ stopped_by n w' r)).
Proof.
  intros N R L.
  assert (AE : exists exc ra, aexit exc w ra w' /\ exc = match rb with Ok _ => None | Err e => Some e end
     /\ r = match ra with Err e => Err e | Ok b => match rb with Ok _ => Ok tt | Err e => if b then Ok tt else Err e end end).
  { destruct rb as [u|e]; cbn [pleave] in L.
    - apply b_inv in L as [(b & w2 & K & [-> ->])|(e & K & ->)]; [exists None, (Ok b)|exists None, (Err e)]; auto.
    - apply b_inv in L as [(b & w2 & K & K2)|(e' & K & ->)].
      + exists (Some e), (Ok b). destruct b; destruct K2 as [-> ->]; auto.
      + exists (Some e), (Err e'). auto. }
  destruct AE as (exc & ra & AE & EX & RR). clear L.
  destruct (aexit_spec _ _ _ _ _ _ _ N R AE) as (h0 & h2 & E & OR & _ & _ & _ & _ & X). exists (h0 ++ h2). split; [exact E|].
  destruct ra as [b|e].
  - left. destruct X as (c & os & X1 & _ & X2 & X3 & X4 & X5 & _). exists os, (p_cancelled (w_x w')). split; [exact X1|]. split; [reflexivity|]. split; [exact X4|].
    split; [|split].
    + intros Q. rewrite X2 in Q. apply orb_true_iff in Q as [Q|Q].
      * left. destruct rb as [u|e]; subst exc; [discriminate|]. destruct e; try discriminate. reflexivity.
      * right. apply in_or_app. right. now apply X5.
    + intros ->. subst exc. rewrite X2. reflexivity.
    + rewrite RR. destruct rb as [u|e]; [reflexivity|]. subst exc. now rewrite X3.
  - right. destruct (aexit_err_results _ _ _ _ AE (ru_res _ _ _ _ R)) as [Y1 Y2]; [rewrite (ru_tasks _ _ _ _ R); now apply seq_ne|].
    rewrite (ru_tasks _ _ _ _ R) in Y2. split; [exact Y1|]. exists e. split; [exact RR|]. split; [exact Y2|].
    destruct X as [X|[X|(X & Y)]]; [now left|right; left; exact X|right; right]. split; [exact X|].
    rewrite (proj1 E), !cancels_app. lia.
Qed.

(** The value of a command's task is a Result. *)
Definition ok_task (t : task pkind pval) : Prop := forall j k, t_kind t = KCmd j -> t_out t <> Some (TValue (PRun k)).
Definition ok_values (w : world) : Prop := Forall ok_task (w_tasks w).
Lemma upd_nth_forall {A} (P : A -> Prop) f : forall (l : list A) i, Forall P l -> (forall t, nth_error l i = Some t -> P (f t)) -> Forall P (upd_nth l i f).
Proof.
  induction l as [|t l IH]; intros i H G; destruct i; cbn; auto; inversion H; subst; constructor; auto.
Qed.
Lemma ok_values_stable : stable pstep pfinish ok_values.
Proof.
  constructor.
  - intros w [i o|e] w' c H; cbn.
    + destruct (nth_error (w_tasks w) i) as [t|] eqn:N; [|discriminate]. destruct (t_out t); [discriminate|].
      destruct (pfinish (w_x w) t o) as [x'|] eqn:E; [|discriminate]. intros [= <- <-]. unfold ok_values. cbn. apply upd_nth_forall; [exact H|].
      intros t' N'. rewrite N in N'. injection N' as <-. intros j k K. cbn in *. intros [= ->]. unfold pfinish in E. rewrite K in E. discriminate.
    + intros [= <- <-]. exact H.
  - intros w H. exact H.
  - intros w i H. unfold req. destruct (task_done w i); [exact H|]. unfold ok_values. cbn. apply upd_nth_forall; [exact H|].
    intros t N j k K. cbn in *. unfold ok_values in H. rewrite Forall_forall in H. exact (H t (nth_error_In _ _ N) j k K).
  - intros w k H. unfold ok_values. cbn. apply Forall_app. split; [exact H|]. constructor; [|constructor]. intros j k' _. discriminate.
Qed.
Lemma k_modx_values f : keeps ok_values (modx f).
Proof. intros w r w' H [_ ->]. exact H. Qed.
Lemma k_when b m : keeps ok_values m -> keeps ok_values (when b m).
Proof. destruct b; [auto|intros _; apply k_ret]. Qed.
Lemma k_wait_values kill : keeps ok_values (wait kill).
Proof.
  unfold wait. apply k_bind; [apply k_bind; [apply k_getx|intros; apply k_assert]|]. intros _. apply k_bind; [apply k_getx|]. intros ts.
  apply k_bind; [apply k_when, k_for; intros; apply (k_cancel_task _ _ _ ok_values_stable)|]. intros _.
  apply k_bind; [apply (k_harvest_results _ _ _ ok_values_stable)|]. intros cr. apply k_bind; [apply k_modx_values|]. intros _.
  apply k_bind; [apply k_when, k_modx_values|]. intros _. apply k_modx_values.
Qed.
Lemma k_add_task_values k : keeps ok_values (add_task k).
Proof. unfold add_task. apply k_bind; [apply (k_spawn _ _ _ ok_values_stable)|]. intros i. apply k_modx_values. Qed.
Lemma k_aenter_values n setup cap : keeps ok_values (aenter n setup cap).
Proof.
  unfold aenter. apply k_try.
  - unfold start. apply k_try.
    + apply k_bind; [destruct setup; [apply k_ret|apply k_raise]|]. intros _. apply k_bind; [|intros _; apply k_modx_values].
      destruct cap; [|apply k_for; intros; apply k_add_task_values]. unfold setup_capturing.
      apply k_bind; [apply (k_spawn _ _ _ ok_values_stable)|]. intros f1. apply k_bind; [apply (k_spawn _ _ _ ok_values_stable)|]. intros f2.
      apply k_bind; [apply k_add_task_values|]. intros _. apply k_bind; [apply k_for; intros; apply k_add_task_values|]. intros _.
      apply k_bind; [apply k_add_task_values|]. intros _. apply k_bind; [apply (k_await_wait _ _ _ ok_values_stable)|]. intros _. apply k_ret.
    + intros e k [= <-]. apply k_bind; [apply k_modx_values|intros; apply k_raise].
  - intros e k. destruct (_ || _); [|discriminate]. intros [= <-]. apply k_bind; [apply k_when, k_modx_values|]. intros _. apply k_bind; [apply k_wait_values|intros; apply k_raise].
Qed.
Lemma k_aexit_values exc : keeps ok_values (aexit exc).
Proof.
  unfold aexit. apply k_try.
  - destruct exc as [e|]; cbn [finish].
    + apply k_bind; [apply k_when, k_modx_values|]. intros _. apply k_bind; [apply k_wait_values|]. intros _. apply k_getx.
    + apply k_bind; [apply k_wait_values|]. intros _. apply k_ret.
  - intros e k. destruct (is_cancelled e); [|discriminate]. intros [= <-]. apply k_bind; [apply k_modx_values|intros; apply k_ret].
Qed.
Lemma values_after n setup w0 w1 rb r w' : aenter n setup true pw0 (Ok tt) w0 -> body_steps w0 w1 -> pleave rb w1 r w' -> ok_values w'.
Proof.
  intros H B L. assert (V0 : ok_values w0) by (eapply k_aenter_values; [|exact H]; constructor).
  assert (V1 : ok_values w1). { clear - V0 B. induction B as [|w ev w1 c w2 E _ IH]; [exact V0|]. apply IH. exact (st_env _ _ _ ok_values_stable _ _ _ _ V0 E). }
  destruct rb as [u|e]; cbn [pleave] in L; (eapply k_bind; [apply k_aexit_values| |exact V1|exact L]).
  - intros; apply k_ret.
  - intros []; [apply k_ret|apply k_raise].
Qed.
