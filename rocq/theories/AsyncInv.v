(** A property of worlds that every event of the environment, every cancel
    request, every new task and every expired timeout preserves is preserved by
    everything built from the awaiting primitives. *)
From Verif Require Import AsyncModel AsyncSpec AsyncProofs HarvestModel HarvestSpec HarvestProofs HarvestProofs2.

Section Inv.
Context {X K V XE : Type}.
Context (xstep : X -> XE -> option (X * bool)).
Context (finish : X -> task K V -> tout V -> option X).
Notation world := (world X K V).
Notation M := (@M X K V).

Record stable (P : world -> Prop) : Prop := {
  st_env : forall w ev w' c, P w -> env_step xstep finish w ev = Some (w', c) -> P w';
  st_timer : forall w, P w -> P (mk_world (w_tasks w) (w_x w) (w_hist w ++ [HTimer]));
  st_req : forall w i, P w -> P (req w i);
  st_spawn : forall w k, P w -> P (mk_world (w_tasks w ++ [mk_task k None 0]) (w_x w) (w_hist w))
}.

Definition keeps (P : world -> Prop) {A} (m : M A) := forall w r w', P w -> m w r w' -> P w'.

Lemma k_ret P {A} (a : A) : keeps P (ret a).
Proof. intros w r w' H [_ ->]. exact H. Qed.
Lemma k_raise P {A} e : keeps P (raise (A := A) e).
Proof. intros w r w' H [_ ->]. exact H. Qed.
Lemma k_get P : keeps P getM.
Proof. intros w r w' H [_ ->]. exact H. Qed.
Lemma k_getx P {A} (f : X -> A) : keeps P (getx f).
Proof. intros w r w' H [_ ->]. exact H. Qed.
Lemma k_assert P b : keeps P (assertM b).
Proof. destruct b; [apply k_ret|apply k_raise]. Qed.
Lemma k_bind P {A B} (m : M A) (f : A -> M B) : keeps P m -> (forall a, keeps P (f a)) -> keeps P (bindM m f).
Proof. intros A1 A2 w r w' H [(a & w1 & H1 & H2)|(e & H1 & _)]; [|exact (A1 _ _ _ H H1)]. exact (A2 a _ _ _ (A1 _ _ _ H H1) H2). Qed.
Lemma k_try P {A} (m : M A) h : keeps P m -> (forall e k, h e = Some k -> keeps P k) -> keeps P (tryM m h).
Proof.
  intros A1 A2 w r w' H [(a & H1 & _)|(e & w1 & H1 & H2)]; [exact (A1 _ _ _ H H1)|]. destruct (h e) as [k|] eqn:E.
  - exact (A2 e k E _ _ _ (A1 _ _ _ H H1) H2).
  - destruct H2 as [_ ->]. exact (A1 _ _ _ H H1).
Qed.
Lemma k_finally P {A} (m : M A) f : keeps P m -> keeps P f -> keeps P (finallyM m f).
Proof. intros A1 A2 w r w' H (r1 & w1 & H1 & [(H2 & _)|(e & H2 & _)]); exact (A2 _ _ _ (A1 _ _ _ H H1) H2). Qed.
Lemma k_for P {A} (l : list A) f : (forall a, keeps P (f a)) -> keeps P (for_ l f).
Proof. intros H. induction l as [|a l IH]; cbn; [apply k_ret|]. apply k_bind; auto. Qed.

Context (P : world -> Prop) (SP : stable P).

Lemma wait_step_keeps mode tgt w s ev w' s' : P w -> wait_step xstep finish mode tgt (w, s) ev = Some (w', s') -> P w'.
Proof.
  intros H. destruct ev as [e|i|]; cbn [wait_step].
  - destruct (env_step xstep finish w e) as [[w1 []]|] eqn:E; [| |discriminate].
    + apply (st_env _ SP _ _ _ _ H) in E. destruct tgt as [i|]; [destruct (task_done w1 i)|]; intros [= <- _]; auto.
      now apply (st_req _ SP).
    + apply (st_env _ SP _ _ _ _ H) in E. intros [= <- _]. exact E.
  - destruct (_ && _); [|discriminate]. destruct (_ || _); intros [= <- _]; exact H.
  - destruct (_ && _); [|discriminate]. intros [= <- _]. now apply (st_timer _ SP).
Qed.
Lemma wait_run_keeps mode tgt evs : forall w s w' s', P w -> wait_run xstep finish mode tgt (w, s) evs = Some (w', s') -> P w'.
Proof.
  induction evs as [|ev evs IH]; intros w s w' s' H; cbn [wait_run]; [now intros [= <- _]|].
  destruct (wait_step _ _ _ _ _ _) as [[w1 s1]|] eqn:E; [|discriminate]. intros R. eapply IH; [|exact R].
  eapply wait_step_keeps; eauto.
Qed.
Lemma k_await_wait fs t m : keeps P (await_wait xstep finish fs t m).
Proof.
  intros w r w' H. destruct fs as [|f fs]; [intros [_ ->]; exact H|]. intros (evs & s & R & _). eapply wait_run_keeps; eauto.
Qed.
Lemma k_await_yield : keeps P (await_yield xstep finish).
Proof. intros w r w' H (evs & s & R & _). eapply wait_run_keeps; eauto. Qed.
Lemma k_await_task i : keeps P (await_task xstep finish i).
Proof.
  intros w r w' H. unfold await_task. destruct (task_out w i); [intros [_ ->]; exact H|].
  intros (evs & s & o & R & _). eapply wait_run_keeps; eauto.
Qed.
Lemma k_await_shield i : keeps P (await_shield xstep finish i).
Proof.
  intros w r w' H. unfold await_shield. destruct (task_out w i); [intros [_ ->]; exact H|].
  intros (evs & s & o & R & _). eapply wait_run_keeps; eauto.
Qed.
Lemma k_spawn k : keeps P (spawn k).
Proof. intros w r w' H [_ ->]. now apply (st_spawn _ SP). Qed.
Lemma k_cancel_task i : keeps P (cancel_task i).
Proof. intros w r w' H [_ ->]. now apply (st_req _ SP). Qed.

Lemma k_ensure aws : keeps P (ensure_futures aws).
Proof.
  induction aws as [|[i|k] aws IH]; cbn; [apply k_ret| |];
    (apply k_bind; [first [apply k_ret|apply k_spawn]|intros a; apply k_bind; [exact IH|intros; apply k_ret]]).
Qed.
Lemma k_consume l : keeps P (consume_exceptions l).
Proof. apply k_for. intros a. apply k_bind; [apply k_get|]. intros w. apply k_assert. Qed.
Lemma k_cancel_waiter l : keeps P (cancel_waiter xstep finish l).
Proof.
  apply k_bind; [apply k_await_wait|]. intros dp. destruct (snd dp); [apply k_ret|].
  apply k_bind; [apply k_for; intros a; apply k_cancel_task|]. intros; apply k_raise.
Qed.
Lemma k_cancel_wait l cf : keeps P (cancel_wait xstep finish l cf).
Proof.
  apply k_try.
  - apply k_bind; [destruct cf; [apply k_ret|apply k_for; intros a; apply k_cancel_task]|]. intros; apply k_cancel_waiter.
  - intros e k. destruct e; try discriminate. intros [= <-]. apply k_cancel_waiter.
Qed.
Lemma k_harvest_wait l t cf : keeps P (harvest_wait xstep finish l t cf).
Proof.
  apply k_bind.
  - apply k_try.
    + apply k_bind; [apply k_await_wait|]. intros dp. apply k_bind; [apply k_get|]. intros; apply k_ret.
    + intros e k. destruct e; try discriminate. intros [= <-]. apply k_bind; [apply k_cancel_wait|]. intros _.
      apply k_bind; [apply k_consume|]. intros; apply k_raise.
  - intros dpt. apply k_bind; [destruct (snd (fst dpt)); [apply k_ret|apply k_cancel_wait]|]. intros _.
    apply k_bind; [apply k_get|]. intros w. apply k_bind; [apply k_assert|]. intros _.
    destruct (snd dpt); [|apply k_ret]. apply k_bind; [apply k_consume|]. intros; apply k_raise.
Qed.
Lemma k_get_task_result i : keeps P (get_task_result i).
Proof.
  apply k_bind; [apply k_get|]. intros w. destruct (task_out w i) as [o|]; [|apply k_raise].
  destruct (task_result o); [apply k_ret|apply k_raise].
Qed.
Lemma k_harvest aws t cf : keeps P (harvest xstep finish aws t cf).
Proof.
  apply k_bind; [apply k_ensure|]. intros tasks. apply k_bind; [apply k_harvest_wait|]. intros _.
  apply k_bind; [apply k_consume|]. intros _. apply k_for. intros i. apply k_bind; [apply k_get|].
  intros w. assert (Q : keeps P (bindM (get_task_result i) (fun _ : V => ret tt))).
  { apply k_bind; [apply k_get_task_result|]. intros; apply k_ret. }
  destruct (task_out w i) as [[| |]|]; auto. apply k_ret.
Qed.
Lemma k_to_results l : keeps P (to_results (V := V) l).
Proof.
  induction l as [|i l IH]; cbn; [apply k_ret|]. apply k_bind.
  - apply k_bind; [apply k_get|]. intros w. destruct (task_out w i) as [[v|e|]|]; try apply k_ret; try apply k_raise.
    destruct e; try apply k_ret; apply k_raise.
  - intros a. apply k_bind; [exact IH|]. intros; apply k_ret.
Qed.
Lemma k_harvest_results aws t : keeps P (harvest_results xstep finish aws t).
Proof.
  apply k_bind; [apply k_ensure|]. intros tasks. apply k_bind.
  - apply k_try; [apply k_bind; [apply k_harvest_wait|intros; apply k_ret]|]. intros e k. destruct e; try discriminate.
    intros [= <-]. apply k_ret.
  - intros c. apply k_bind; [apply k_to_results|]. intros; apply k_ret.
Qed.
End Inv.

(** Conjunction and implication of stable properties. *)
Lemma stable_and {X K V XE} (xstep : X -> XE -> option (X * bool)) (finish : X -> task K V -> tout V -> option X) P Q :
  stable xstep finish P -> stable xstep finish Q -> stable xstep finish (fun w => P w /\ Q w).
Proof. intros [A1 A2 A3 A4] [B1 B2 B3 B4]. constructor; intros; intuition eauto. Qed.

(** A stable property that only speaks about the rest of the world. *)
Lemma stable_x {X K V XE} (xstep : X -> XE -> option (X * bool)) (finish : X -> task K V -> tout V -> option X) (P : X -> Prop) :
  (forall x e x' c, P x -> xstep x e = Some (x', c) -> P x') ->
  (forall x t o x', P x -> finish x t o = Some x' -> P x') ->
  stable xstep finish (fun w => P (w_x w)).
Proof.
  intros A B. constructor; auto.
  - intros w [i o|e] w' c H; cbn.
    + destruct (nth_error (w_tasks w) i) as [t|]; [|discriminate]. destruct (t_out t); [discriminate|].
      destruct (finish (w_x w) t o) as [x'|] eqn:E; [|discriminate]. intros [= <- <-]. cbn. eauto.
    + destruct (xstep (w_x w) e) as [[x' c']|] eqn:E; [|discriminate]. intros [= <- <-]. cbn. eauto.
  - intros w i H. unfold req. destruct (task_done w i); exact H.
Qed.
