(** Like AsyncInv, for code that creates no tasks. *)
From Verif Require Import AsyncModel AsyncSpec AsyncProofs HarvestModel HarvestSpec HarvestProofs HarvestProofs2 AsyncInv.

Section Inv0.
Context {X K V XE : Type}.
Context (xstep : X -> XE -> option (X * bool)).
Context (finish : X -> task K V -> tout V -> option X).
Notation world := (world X K V).
Notation M := (@M X K V).
Notation keeps := (@keeps X K V).

Record stable0 (P : world -> Prop) : Prop := {
  s0_env : forall w ev w' c, P w -> env_step xstep finish w ev = Some (w', c) -> P w';
  s0_timer : forall w, P w -> P (mk_world (w_tasks w) (w_x w) (w_hist w ++ [HTimer]));
  s0_req : forall w i, P w -> P (req w i)
}.

Context (P : world -> Prop) (SP : stable0 P).

Lemma wait_step_keeps0 mode tgt w s ev w' s' : P w -> wait_step xstep finish mode tgt (w, s) ev = Some (w', s') -> P w'.
Proof.
  intros H. destruct ev as [e|i|]; cbn [wait_step].
  - destruct (env_step xstep finish w e) as [[w1 []]|] eqn:E; [| |discriminate].
    + apply (s0_env _ SP _ _ _ _ H) in E. destruct tgt as [i|]; [destruct (task_done w1 i)|]; intros [= <- _]; auto.
      now apply (s0_req _ SP).
    + apply (s0_env _ SP _ _ _ _ H) in E. intros [= <- _]. exact E.
  - destruct (_ && _); [|discriminate]. destruct (_ || _); intros [= <- _]; exact H.
  - destruct (_ && _); [|discriminate]. intros [= <- _]. now apply (s0_timer _ SP).
Qed.
Lemma wait_run_keeps0 mode tgt evs : forall w s w' s', P w -> wait_run xstep finish mode tgt (w, s) evs = Some (w', s') -> P w'.
Proof.
  induction evs as [|ev evs IH]; intros w s w' s' H; cbn [wait_run]; [now intros [= <- _]|].
  destruct (wait_step _ _ _ _ _ _) as [[w1 s1]|] eqn:E; [|discriminate]. intros R. eapply IH; [|exact R].
  eapply wait_step_keeps0; eauto.
Qed.
Lemma k0_await_wait fs t m : keeps P (await_wait xstep finish fs t m).
Proof.
  intros w r w' H. destruct fs as [|f fs]; [intros [_ ->]; exact H|]. intros (evs & s & R & _). eapply wait_run_keeps0; eauto.
Qed.
Lemma k0_await_yield : keeps P (await_yield xstep finish).
Proof. intros w r w' H (evs & s & R & _). eapply wait_run_keeps0; eauto. Qed.
Lemma k0_await_task i : keeps P (await_task xstep finish i).
Proof.
  intros w r w' H. unfold await_task. destruct (task_out w i); [intros [_ ->]; exact H|].
  intros (evs & s & o & R & _). eapply wait_run_keeps0; eauto.
Qed.
Lemma k0_await_shield i : keeps P (await_shield xstep finish i).
Proof.
  intros w r w' H. unfold await_shield. destruct (task_out w i); [intros [_ ->]; exact H|].
  intros (evs & s & o & R & _). eapply wait_run_keeps0; eauto.
Qed.
Lemma k0_cancel_task i : keeps P (cancel_task i).
Proof. intros w r w' H [_ ->]. now apply (s0_req _ SP). Qed.

Lemma k0_consume l : keeps P (consume_exceptions l).
Proof. apply k_for. intros a. apply k_bind; [apply k_get|]. intros w. apply k_assert. Qed.
Lemma k0_cancel_waiter l : keeps P (cancel_waiter xstep finish l).
Proof.
  apply k_bind; [apply k0_await_wait|]. intros dp. destruct (snd dp); [apply k_ret|].
  apply k_bind; [apply k_for; intros a; apply k0_cancel_task|]. intros; apply k_raise.
Qed.
Lemma k0_cancel_wait l cf : keeps P (cancel_wait xstep finish l cf).
Proof.
  apply k_try.
  - apply k_bind; [destruct cf; [apply k_ret|apply k_for; intros a; apply k0_cancel_task]|]. intros; apply k0_cancel_waiter.
  - intros e k. destruct e; try discriminate. intros [= <-]. apply k0_cancel_waiter.
Qed.
Lemma k0_harvest_wait l t cf : keeps P (harvest_wait xstep finish l t cf).
Proof.
  apply k_bind.
  - apply k_try.
    + apply k_bind; [apply k0_await_wait|]. intros dp. apply k_bind; [apply k_get|]. intros; apply k_ret.
    + intros e k. destruct e; try discriminate. intros [= <-]. apply k_bind; [apply k0_cancel_wait|]. intros _.
      apply k_bind; [apply k0_consume|]. intros; apply k_raise.
  - intros dpt. apply k_bind; [destruct (snd (fst dpt)); [apply k_ret|apply k0_cancel_wait]|]. intros _.
    apply k_bind; [apply k_get|]. intros w. apply k_bind; [apply k_assert|]. intros _.
    destruct (snd dpt); [|apply k_ret]. apply k_bind; [apply k0_consume|]. intros; apply k_raise.
Qed.
Lemma k0_to_results l : keeps P (to_results (V := V) l).
Proof.
  induction l as [|i l IH]; cbn; [apply k_ret|]. apply k_bind.
  - apply k_bind; [apply k_get|]. intros w. destruct (task_out w i) as [[v|e|]|]; try apply k_ret; try apply k_raise.
    destruct e; try apply k_ret; apply k_raise.
  - intros a. apply k_bind; [exact IH|]. intros; apply k_ret.
Qed.

Lemma k0_harvest_results_tasks l t : keeps P (harvest_results_tasks xstep finish l t).
Proof.
  apply k_bind.
  - apply k_try; [apply k_bind; [apply k0_harvest_wait|intros; apply k_ret]|]. intros e k. destruct e; try discriminate.
    intros [= <-]. apply k_ret.
  - intros c. apply k_bind; [apply k0_to_results|]. intros; apply k_ret.
Qed.
End Inv0.

(** harvest_results of a single task. *)
Section One.
Context {X K V XE : Type}.
Context (xstep : X -> XE -> option (X * bool)).
Context (finish : X -> task K V -> tout V -> option X).
Notation world := (world X K V).
Notation await_wait := (await_wait xstep finish).

Lemma wait_one i tmo (w : world) dp w' : await_wait [i] tmo FIRST_EXCEPTION w (Ok dp) w' ->
  (dp = ([i], []) /\ task_done w' i = true) \/ (dp = ([], [i]) /\ task_done w' i = false).
Proof.
  intros (evs & s & _ & [(_ & Q)|(_ & _ & Q)]); [discriminate|]. injection Q as ->. cbn. destruct (task_done w' i) eqn:D; auto.
Qed.
Lemma to_results_one i (w : world) r w' : to_results [i] w r w' -> w' = w /\
  ((exists o, r = Ok [o] /\ task_out w i = Some o /\ ~ reraised o) \/ (exists e, r = Err e /\ task_out w i = Some (TFail e) /\ reraised (V := V) (TFail e))
   \/ (r = Err InvalidStateError /\ task_done w i = false)).
Proof.
  intros H. destruct (to_results_spec _ _ _ _ H) as (-> & [(os & -> & F)|[(e & j & o & -> & [<-|[]] & O & -> & RR)|(-> & j & [<-|[]] & D)]]).
  - inversion F as [|? o ? os' (O & N) F']; subst. inversion F'; subst. split; [reflexivity|]. left. eauto.
  - split; [reflexivity|]. right. left. eauto.
  - split; [reflexivity|]. auto.
Qed.
Lemma consume_one i (w : world) r w' : consume_exceptions [i] w r w' -> w' = w /\ (r = Ok tt \/ (r = Err AssertionError /\ task_done w i = false)).
Proof.
  intros [([] & w1 & [(u & w2 & [Q ->] & H1)|(e & [Q _] & _)] & [-> ->])|(e & [(u & w2 & [Q ->] & H1)|(e' & [Q _] & _)] & ->)]; try discriminate; injection Q as ->.
  - destruct (task_done w i); destruct H1 as [Q ->]; auto; discriminate.
  - destruct (task_done w i) eqn:D; destruct H1 as [Q ->]; try discriminate. injection Q as ->. auto.
Qed.
Lemma cancel_waiter_one i (w : world) r w' : cancel_waiter xstep finish [i] w r w' ->
  (r = Ok tt /\ task_done w' i = true) \/ r = Err CancelledError \/ (r = Err cancel_failed /\ task_done w' i = false).
Proof.
  intros [(dp & w1 & H1 & H2)|(e & H1 & ->)].
  - destruct H1 as (evs & s & _ & [(_ & Q)|(_ & _ & Q)]); [discriminate|]. injection Q as ->. cbn in H2. destruct (task_done w1 i) eqn:D; cbn in H2.
    + destruct H2 as [-> ->]. auto.
    + right; right. destruct H2 as [([] & w2 & H2 & [-> ->])|(e & H2 & ->)].
      * split; [reflexivity|]. destruct H2 as [([] & w3 & [_ ->] & [_ ->])|(e & [Q _] & _)]; [|discriminate].
        unfold req. rewrite D. unfold task_done, task_out in *. cbn. destruct (nth_error (w_tasks w1) i) as [t|] eqn:N.
        { assert (E : nth_error (upd_nth (w_tasks w1) i (fun t0 => mk_task (t_kind t0) (t_out t0) (S (t_creq t0)))) i = Some (mk_task (t_kind t) (t_out t) (S (t_creq t)))).
          { clear -N. revert i N. induction (w_tasks w1) as [|a l IH]; intros [|i] N; cbn in *; try discriminate; [now injection N as ->|auto]. }
          rewrite E. exact D. }
        { assert (E : nth_error (upd_nth (w_tasks w1) i (fun t0 => mk_task (t_kind t0) (t_out t0) (S (t_creq t0)))) i = None).
          { clear -N. revert i N. induction (w_tasks w1) as [|a l IH]; intros [|i] N; cbn in *; try discriminate; auto. }
          rewrite E. reflexivity. }
      * destruct H2 as [([] & w3 & [_ ->] & [Q _])|(e' & [Q _] & _)]; discriminate.
  - destruct H1 as (evs & s & _ & [(_ & Q)|(_ & _ & Q)]); [|discriminate]. injection Q as ->. auto.
Qed.
Lemma cancel_wait_one i (w : world) r w' : cancel_wait xstep finish [i] false w r w' ->
  (r = Ok tt /\ task_done w' i = true) \/ r = Err CancelledError \/ (r = Err cancel_failed /\ task_done w' i = false).
Proof.
  intros [([] & H & ->)|(e & w1 & H & K1)].
  - destruct H as [([] & w1 & _ & H)|(e & _ & Q)]; [|discriminate]. apply cancel_waiter_one in H as [(_ & D)|[Q|(Q & _)]]; try discriminate. auto.
  - destruct H as [([] & w2 & _ & H)|(e' & [([] & w3 & [Q' _] & [Q _])|(e2 & [Q _] & _)] & _)]; try discriminate.
    apply cancel_waiter_one in H as [(Q & _)|[Q|(Q & D)]]; try discriminate; injection Q as ->.
    + now apply cancel_waiter_one in K1.
    + destruct K1 as [-> ->]. auto.
Qed.
(** [Q] holds once cancellation of the unfinished task has been requested. *)
Lemma cancel_wait_req i (w : world) r w' Q : stable0 xstep finish Q -> Q (req w i) -> cancel_wait xstep finish [i] false w r w' -> Q w'.
Proof.
  intros SQ QR. assert (G : forall r1 w1, bindM (for_ [i] (cancel_task (V := V))) (fun _ => cancel_waiter xstep finish [i]) w r1 w1 -> Q w1).
  { intros r1 w1 [([] & w2 & [([] & w3 & [_ ->] & [_ ->])|(e & [Q' _] & _)] & H)|(e & [([] & w3 & [Q' _] & [Q'' _])|(e2 & [Q' _] & _)] & _)]; try discriminate.
    exact (k0_cancel_waiter _ _ _ SQ [i] _ _ _ QR H). }
  intros [([] & H & _)|(e & w1 & H & K1)]; [eapply G; exact H|]. apply G in H.
  destruct e; try (destruct K1 as [_ ->]; exact H). exact (k0_cancel_waiter _ _ _ SQ [i] _ _ _ H K1).
Qed.

Lemma done_stable i : stable0 xstep finish (fun u : world => task_done u i = true).
Proof.
  constructor.
  - intros u ev u' c D E. destruct (env_step_ext _ _ _ _ _ _ E) as (h & X1 & _). exact (ext_done _ _ _ _ X1 D).
  - intros u D. exact D.
  - intros u j D. unfold req. destruct (task_done u j) eqn:DJ; [exact D|]. unfold task_done, task_out in *. cbn.
    destruct (Nat.eq_dec j i) as [->|NE]; [congruence|].
    assert (E : forall l k, k <> j -> nth_error (upd_nth l j (fun t : task K V => mk_task (t_kind t) (t_out t) (S (t_creq t)))) k = nth_error l k).
    { clear. induction j as [|j IH]; intros [|a l] [|k] NE; cbn; try reflexivity; [lia|]. apply IH. lia. }
    rewrite E by lia. exact D.
Qed.
Lemma wait_timer i tmo (w w' : world) : task_done w' i = false -> await_wait [i] tmo FIRST_EXCEPTION w (Ok ([], [i])) w' -> tmo = true.
Proof.
  intros D H. destruct (await_wait_spec _ _ _ _ _ _ _ _ H ltac:(discriminate)) as (h & _ & _ & T & [(Q & _)|(_ & _ & [P|[P|(_ & j & [<-|[]] & F)]])]); try discriminate.
  - exfalso. cbn in P. rewrite D in P. discriminate.
  - auto.
  - exfalso. unfold task_done in D. destruct (task_out w' i); discriminate.
Qed.
(** [Q] is anything that holds for good once cancellation of the unfinished
    task has been requested. *)
Lemma harvest_one i tmo (w : world) r w' P Rq : stable0 xstep finish P -> stable0 xstep finish Rq ->
  (forall u, P u -> task_done u i = false -> Rq (req u i)) -> P w ->
  harvest_results_tasks xstep finish [i] tmo w r w' ->
  (exists o, r = Ok (false, [o]) /\ task_out w' i = Some o /\ ~ reraised o /\ await_wait [i] tmo FIRST_EXCEPTION w (Ok ([i], [])) w')
  \/ (exists o, r = Ok (true, [o]) /\ task_out w' i = Some o)
  \/ (r = Err TimeoutError /\ tmo = true /\ Rq w' /\ task_done w' i = true)
  \/ (exists e, r = Err e /\ (e = cancel_failed \/ e = InvalidStateError) /\ task_done w' i = false /\ Rq w')
  \/ (exists e, r = Err e /\ task_out w' i = Some (TFail e) /\ reraised (V := V) (TFail e)).
Proof.
  intros SP SQ PQ PW H. unfold harvest_results_tasks in H.
  assert (CW : forall w1 rc wc, P w1 -> task_done wc i = false \/ task_done w1 i = false -> cancel_wait xstep finish [i] false w1 rc wc -> Rq wc).
  { intros w1 rc wc P1 D HC. assert (D1 : task_done w1 i = false).
    { destruct D as [D|D]; [|exact D]. destruct (task_done w1 i) eqn:D1; [|reflexivity]. rewrite <- D. symmetry.
      refine (k0_cancel_wait xstep finish (fun u => task_done u i = true) (done_stable i) [i] false _ _ _ D1 HC). }
    exact (cancel_wait_req _ _ _ _ Rq SQ (PQ _ P1 D1) HC). }
  assert (HW : forall rw wr, harvest_wait xstep finish [i] tmo false w rw wr ->
    (rw = Ok tt /\ await_wait [i] tmo FIRST_EXCEPTION w (Ok ([i], [])) wr)
    \/ (rw = Err CancelledError /\ (task_done wr i = false -> Rq wr))
    \/ (rw = Err TimeoutError /\ tmo = true /\ Rq wr /\ task_done wr i = true)
    \/ (exists e, rw = Err e /\ (e = cancel_failed \/ e = InvalidStateError) /\ task_done wr i = false /\ Rq wr)).
  { intros rw wr [(dpt & w1 & H1 & H2)|(e & H1 & ->)].
    - destruct H1 as [(a & H1 & Q)|(e & w2 & H1 & H3)].
      + injection Q as <-. destruct H1 as [(dp & w2 & H1 & H3)|(e & _ & Q)]; [|discriminate].
        destruct H3 as [(u & w3 & [Q ->] & [Q' ->])|(e & [Q _] & _)]; [|discriminate]. injection Q as ->. injection Q' as ->. cbn [fst snd] in H2.
        pose proof (wait_one _ _ _ _ _ H1) as [(-> & D)|(-> & D)]; cbn [fst snd time_expired] in H2.
        * destruct H2 as [([] & w3 & [_ ->] & H2)|(e & [Q _] & _)]; [|discriminate].
          destruct H2 as [(u & w3 & [Q ->] & H2)|(e & [Q _] & _)]; [|discriminate]. injection Q as ->. cbn [forallb] in H2. rewrite D in H2. cbn in H2.
          destruct H2 as [([] & w3 & [_ ->] & [-> ->])|(e & [Q _] & _)]; [|discriminate]. left. auto.
        * destruct H2 as [([] & w3 & H2 & H3)|(e & H2 & ->)].
          -- right; right. pose proof (cancel_wait_one _ _ _ _ H2) as [(_ & D')|[Q|(Q & _)]]; try discriminate.
             destruct H3 as [(u & w4 & [Q ->] & H3)|(e & [Q _] & _)]; [|discriminate]. injection Q as ->. cbn [forallb] in H3. rewrite D' in H3. cbn in H3.
             destruct H3 as [([] & w4 & [_ ->] & H3)|(e & [Q _] & _)]; [|discriminate].
             destruct H3 as [([] & w4 & H3 & [-> ->])|(e & H3 & ->)].
             ++ apply consume_one in H3 as (-> & _). left. split; [reflexivity|].
                assert (P1 := k0_await_wait _ _ P SP _ _ _ _ _ _ PW H1).
                split; [exact (wait_timer _ _ _ _ D H1)|]. split; [exact (CW _ _ _ P1 (or_intror D) H2)|exact D'].
             ++ apply consume_one in H3 as (-> & [Q|(Q & D2)]); [discriminate|]. congruence.
          -- assert (P1 := k0_await_wait _ _ P SP _ _ _ _ _ _ PW H1). pose proof (CW _ _ _ P1 (or_intror D) H2) as QQ.
             apply cancel_wait_one in H2 as [(Q' & _)|[Q'|(Q' & D')]]; [discriminate| |]; injection Q' as ->; [right; left; auto|].
             right; right; right. exists cancel_failed. split; [reflexivity|]. split; [auto|]. split; [exact D'|exact QQ].
      + exfalso. destruct e; try (destruct H3; discriminate). destruct H3 as [([] & w3 & _ & [([] & w4 & _ & [Q _])|(e & _ & Q)])|(e & _ & Q)]; discriminate.
    - destruct H1 as [(a & _ & Q)|(e' & w2 & H1 & H3)]; [discriminate|].
      assert (E : e' = CancelledError).
      { destruct H1 as [(dp & w3 & H1 & [(u & w4 & [Q ->] & [Q' _])|(e2 & [Q _] & _)])|(e2 & H1 & Q)]; try discriminate. injection Q as <-.
        destruct H1 as (evs & s & _ & [(_ & Q)|(_ & _ & Q)]); [|discriminate]. now injection Q. }
      subst e'. assert (P2 : P w2).
      { destruct H1 as [(dp & w3 & _ & [(u & w4 & [Q' _] & [Q'' _])|(e2 & [Q' _] & _)])|(e2 & H1 & _)]; try discriminate.
        exact (k0_await_wait _ _ P SP _ _ _ _ _ _ PW H1). }
      destruct H3 as [([] & w3 & H3 & H4)|(e' & H3 & Q)].
      + pose proof (cancel_wait_one _ _ _ _ H3) as [(_ & D')|[Q|(Q & _)]]; try discriminate.
        destruct H4 as [([] & w4 & H4 & [Q' ->])|(e' & H4 & Q')].
        { right; left. apply consume_one in H4 as (-> & _). split; [congruence|]. intros D2. congruence. }
        injection Q' as <-.
        apply consume_one in H4 as (-> & [Q|(Q & D2)]); [discriminate|congruence].
      + injection Q as <-. assert (QQ := fun D => CW _ _ _ P2 (or_introl D) H3).
        apply cancel_wait_one in H3 as [(Q' & _)|[Q'|(Q' & D')]]; [discriminate| |]; injection Q' as ->; [right; left; auto|].
        right; right; right. exists cancel_failed. split; [reflexivity|]. split; [auto|]. split; [exact D'|exact (QQ D')]. }
  assert (R : exists rw wr, harvest_wait xstep finish [i] tmo false w rw wr /\
     match rw with
     | Ok _ => bindM (to_results [i]) (fun os => ret (false, os)) wr r w'
     | Err CancelledError => bindM (to_results [i]) (fun os => ret (true, os)) wr r w'
     | Err e => r = Err e /\ w' = wr
     end).
  { destruct H as [(c & w2 & H1 & H2)|(e & H1 & ->)].
    - destruct H1 as [(c' & H1 & Q)|(e & w3 & H1 & H4)].
      + injection Q as <-. destruct H1 as [([] & w3 & H1 & [Q ->])|(e & _ & Q)]; [|discriminate]. injection Q as ->. exists (Ok tt), w3. auto.
      + destruct H1 as [([] & w4 & _ & [Q _])|(e' & H1 & Q)]; [discriminate|]. injection Q as <-.
        destruct e; try (destruct H4; discriminate). destruct H4 as [Q ->]. injection Q as ->. exists (Err CancelledError), w3. auto.
    - destruct H1 as [(c' & _ & Q)|(e' & w3 & H1 & H4)]; [discriminate|].
      destruct H1 as [([] & w4 & _ & [Q _])|(e2 & H1 & Q)]; [discriminate|]. injection Q as <-.
      exists (Err e'), w3. split; [exact H1|]. destruct e'; destruct H4 as [H4 ->]; try discriminate; (split; [|reflexivity]); congruence. }
  destruct R as (rw & wr & H1 & H2). pose proof (HW _ _ H1) as [(-> & A)|[(-> & QW)|[(-> & TT & QW & D)|(e & -> & NE & D & QW)]]].
  - destruct H2 as [(os & w3 & H2 & [-> ->])|(e & H2 & ->)]; apply to_results_one in H2 as (-> & [(o & Q' & O & N)|[(e' & Q' & O & RR)|(Q' & D)]]); try discriminate; injection Q' as ->.
    + left. exists o. auto.
    + right; right; right; right. eauto.
    + exfalso. destruct (wait_one _ _ _ _ _ A) as [(_ & D')|(Q' & _)]; [congruence|discriminate].
  - destruct H2 as [(os & w3 & H2 & [-> ->])|(e & H2 & ->)]; apply to_results_one in H2 as (-> & [(o & Q' & O & N)|[(e' & Q' & O & RR)|(Q' & D)]]); try discriminate; injection Q' as ->.
    + right; left. exists o. auto.
    + right; right; right; right. eauto.
    + right; right; right; left. exists InvalidStateError. split; [reflexivity|]. split; [auto|]. auto.
  - destruct H2 as [-> ->]. right; right; left. auto.
  - right; right; right; left. exists e. destruct NE as [->| ->]; destruct H2 as [-> ->]; auto.
Qed.
End One.
