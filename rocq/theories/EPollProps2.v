(** C127: what happens to a child whose watching failed (watcher.py 285-313,
    432-474). *)
From Verif Require Import Base EPollModel EPollProofs EPollProofs2 EPollProofs3 EPollProofs4 EPollProofs5 EPollProofs6 EPollProofs7 EPollProps.
From Coq Require Import List ZArith Lia Bool.
Import ListNotations.
Local Open Scope nat_scope.

Section Poll.
Context (ordered bad_cb : bool) (rfd wfd efd : nat).
Notation ereach := (ereach ordered bad_cb rfd wfd efd).
Notation estep := (estep ordered bad_cb rfd efd).

(** An execution, and the state the watched child was in each time it was
    polled by the task of watch [k] (the task's position changes). *)
Definition polling (x : wpc) : bool := match x with WPoll (S _) => true | _ => false end.
Inductive run_polls (k : nat) : est -> list pst -> est -> Prop :=
| rp_nil s : run_polls k s [] s
| rp_other s s1 l s' : estep s s1 -> polling (e_w s k) = false \/ e_w s1 k = e_w s k -> run_polls k s1 l s' -> run_polls k s l s'
| rp_poll s s1 l s' : estep s s1 -> polling (e_w s k) = true -> e_w s1 k <> e_w s k -> run_polls k s1 l s' ->
    run_polls k s (e_proc s (e_wproc s k) :: l) s'.
Definition running (x : pst) : Prop := exists n, x = PRun n.
Definition died (x : pst) (st : Z) : Prop := exists n, x = PZombie n st.

(** What the task of watch [k] does next. *)
Lemma step_task s s1 k n : ereach s -> estep s s1 -> e_w s k = WPoll n ->
  e_w s1 k = WPoll n
  \/ (exists m, n = S m /\ e_w s1 k = WPoll m /\ running (e_proc s (e_wproc s k)))
  \/ (exists m st, n = S m /\ e_w s1 k = WCall st /\ died (e_proc s (e_wproc s k)) st)
  \/ (n = 0 /\ e_w s1 k = WEnd).
Proof.
  intros R H W. pose proof (reach_IC _ _ _ _ _ _ R) as C. destruct (reach_IAB _ _ _ _ _ _ R) as (A & I & _). clear R.
  destruct (wpoll_holds _ _ _ s k n A I C (or_introl W)) as (m & Hm & Pm).
  inversion H; subst; rewrite ?os_close_eq in *; cbn; auto; unfold fset; destruct (Nat.eqb_spec k k0); auto; subst; try congruence.
  - assert (n = S n0) by congruence. subst. right. left. exists n0. split; [reflexivity|]. split; [reflexivity|].
    assert (m = pid) by congruence. subst. match goal with Q : waitpid _ _ _ _ |- _ => inversion Q; subst end. exists pid.
    assert (q = e_wproc s k0) by (eapply (a_pid _ A); [match goal with Q : e_proc s q = _ |- _ => rewrite Q; reflexivity end|exact Hm]). now subst.
  - assert (n = S n0) by congruence. subst. right. right. left. exists n0, st. split; [reflexivity|]. split; [reflexivity|].
    assert (m = pid) by congruence. subst. match goal with Q : waitpid _ _ _ _ |- _ => inversion Q; subst end.
    + exists pid. assert (q = e_wproc s k0) by (eapply (a_pid _ A); [match goal with Q : e_proc s q = _ |- _ => rewrite Q; reflexivity end|exact Hm]). now subst.
    + exfalso. match goal with Q : forall q, ~ holds_pid _ _ |- _ => eapply Q; exact Hm end.
  - assert (n = 0) by congruence. subst. auto.
Qed.

(** Nothing else calls the callback of watch [k]. *)
Lemma step_quiet s s1 k : ereach s -> estep s s1 -> (forall f, e_w s k <> WOk f) -> (forall st, e_w s k <> WCall st) ->
  n_calls k (e_log s1) = n_calls k (e_log s).
Proof.
  intros R H N1 N2. destruct (reach_IAB _ _ _ _ _ _ R) as (A & I & _).
  destruct (step_calls _ _ _ _ _ _ H) as [(_ & E)|[(j & st & f & l & P & _ & L & _)|(j & st & P & L & _)]]; [auto|rewrite L ..];
    unfold n_calls; cbn; destruct (Nat.eqb_spec j k) as [->|]; cbn; auto; exfalso.
  - assert (Hh : held (e_pc s) k) by (rewrite P; reflexivity). destruct (held_wok _ _ _ s k I Hh) as (g & Wg & _). eapply N1; eauto.
  - eapply N2; eauto.
Qed.
Definition polled_well (k n : nat) (l : list pst) (s' : est) : Prop :=
  (exists l0 x st, l = l0 ++ [x] /\ List.length l0 < n /\ Forall running l0 /\ died x st /\ In (LCall k st) (e_log s') /\ n_calls k (e_log s') = 1)
  \/ (List.length l = n /\ Forall running l /\ n_calls k (e_log s') = 0).
Lemma task_runs k s l s' : run_polls k s l s' -> ereach s -> e_w s' k = WEnd ->
  match e_w s k with
  | WEnd => l = [] /\ n_calls k (e_log s') = n_calls k (e_log s)
  | WCall st => l = [] /\ In (LCall k st) (e_log s') /\ n_calls k (e_log s') = 1
  | WPoll n => n_calls k (e_log s) = 0 -> polled_well k n l s'
  | WTask => n_calls k (e_log s) = 0 -> (l = [] /\ n_calls k (e_log s') = 0) \/ polled_well k 5 l s'
  | _ => True
  end.
Proof.
  intros H. induction H as [s|s s1 l s' H N H1 IH|s s1 l s' H P N H1 IH]; intros R E.
  - rewrite E. auto.
  - assert (R1 : ereach s1) by (eapply er_step; eauto). specialize (IH R1 E).
    destruct (e_w s k) as [| | | | | | |n|st|] eqn:W; auto.
    + (* WTask *) intros Z. pose proof (step_quiet _ _ k R H ltac:(congruence) ltac:(congruence)) as Q.
      assert (D : e_w s1 k = WTask \/ e_w s1 k = WPoll 5 \/ e_w s1 k = WEnd).
      { clear IH N Q. inversion H; subst; rewrite ?os_close_eq in *; cbn; auto; unfold fset; destruct (Nat.eqb_spec k k0); auto; subst; try congruence; auto. }
      rewrite Z in Q. destruct D as [D|[D|D]]; rewrite D in IH; [now apply IH|right; now apply IH|left]. destruct IH as (-> & ->). auto.
    + (* WPoll *) intros Z. pose proof (step_quiet _ _ k R H ltac:(congruence) ltac:(congruence)) as Q. rewrite Z in Q.
      destruct (step_task _ _ _ _ R H W) as [D|[(m & -> & D & _)|[(m & st & -> & D & _)|(-> & D)]]]; rewrite D in *.
      * now apply IH.
      * destruct N as [N|N]; [discriminate|]. injection N as N. lia.
      * destruct N as [N|N]; discriminate.
      * destruct IH as (-> & C). right. rewrite C. auto.
    + (* WCall *) destruct (step_calls _ _ _ _ _ _ H) as [(_ & C)|[(j & st' & f & g & P & _ & L & Q & _)|(j & st' & P & L & Q & _)]].
      * assert (D : e_w s1 k = WCall st).
        { clear IH N. inversion H; subst; rewrite ?os_close_eq in *; cbn; auto; unfold fset; destruct (Nat.eqb_spec k k0); auto; subst; try congruence.
          cbn in C. specialize (C k0). unfold n_calls in C. cbn in C. rewrite Nat.eqb_refl in C. cbn in C. lia. }
        rewrite D in IH. exact IH.
      * rewrite Q, W in IH. exact IH.
      * rewrite Q in IH. unfold fset in IH. destruct (Nat.eqb_spec k j) as [EQ|NE].
        -- rewrite <- EQ in *. clear j EQ. destruct IH as (-> & C). split; [reflexivity|]. assert (st' = st) by congruence. subst st'.
           assert (Z : n_calls k (e_log s) = 0).
           { apply n_calls_0. intros Z. destruct (c_called _ (reach_IC _ _ _ _ _ _ R) k Z) as [X|(f & X & _)]; congruence. }
           split; [|rewrite C, L; unfold n_calls in *; cbn; rewrite Nat.eqb_refl; cbn; now rewrite Z].
           clear - H1 L. assert (M : In (LCall k st) (e_log s1)) by (rewrite L; now left). clear L. induction H1; auto; apply IHrun_polls; eapply log_mono; eauto.
        -- rewrite W in IH. exact IH.
    + (* WEnd *) pose proof (step_quiet _ _ k R H ltac:(congruence) ltac:(congruence)) as Q. rewrite (wend_keep _ _ _ _ _ _ _ H W) in IH. destruct IH as (-> & ->). auto.
  - assert (R1 : ereach s1) by (eapply er_step; eauto). specialize (IH R1 E).
    destruct (e_w s k) as [| | | | | | |[|n]|st|] eqn:W; try discriminate P. intros Z.
    pose proof (step_quiet _ _ k R H ltac:(congruence) ltac:(congruence)) as Q. rewrite Z in Q.
    destruct (step_task _ _ _ _ R H W) as [D|[(m & [= <-] & D & X)|[(m & st & [= <-] & D & X)|(Y & D)]]]; [congruence|rewrite D in IH ..|discriminate Y].
    + destruct (IH Q) as [(l0 & x & st & -> & L & F & DX & C)|(L & F & C)].
      * left. exists (e_proc s (e_wproc s k) :: l0), x, st. cbn [app List.length]. split; [reflexivity|]. split; [lia|]. split; [now constructor|]. auto.
      * right. cbn [List.length]. split; [lia|]. split; [now constructor|]. exact C.
    + destruct IH as (-> & C). left. exists [], (e_proc s (e_wproc s k)), st. cbn [app List.length]. split; [reflexivity|]. split; [lia|]. split; [constructor|]. auto.
Qed.

(** A task that was created for a failed watch ends in one of three ways:
    without ever running (the event loop is gone); after at most five polls,
    the last one of which found the child dead, and then the callback was called
    exactly once, with its exit status; or after five polls that all found the
    child running, and then the callback was not called. *)
Theorem c127_failed_watch s k l s' :
  ereach s -> e_w s k = WTask -> run_polls k s l s' -> e_w s' k = WEnd ->
  (l = [] /\ n_calls k (e_log s') = 0)
  \/ (exists l0 x st, l = l0 ++ [x] /\ List.length l0 < 5 /\ Forall running l0 /\ died x st /\ In (LCall k st) (e_log s') /\ n_calls k (e_log s') = 1)
  \/ (List.length l = 5 /\ Forall running l /\ n_calls k (e_log s') = 0).
Proof.
  intros R W H E. pose proof (task_runs _ _ _ _ H R E) as T. rewrite W in T. apply T.
  apply n_calls_0. intros Z. destruct (c_called _ (reach_IC _ _ _ _ _ _ R) k Z) as [X|(f & X & _)]; congruence.
Qed.
End Poll.
Print Assumptions c127_failed_watch.

From Verif Require Import EPollExamples.
(** pidfd_open fails, the child is killed, is still running at the first poll
    and dead (status -9) at the second one. *)
Example c127_example : exists s l s', ereach true false 3 4 5 s /\ e_w s 0 = WTask /\ run_polls true false 3 5 0 s l s' /\ e_w s' 0 = WEnd
  /\ List.length l = 2 /\ In (LCall 0 (-9)%Z) (e_log s').
Proof.
  pose proof (ex_init_ok true false) as R.
  adv (with2 e_fork 0 100%Z).
  adv (with2 e_watch 0 0).
  adv (with1 e_open_err 0).
  adv (with3 e_kill 0 100%Z 0).
  match goal with R : ereach _ _ _ _ _ ?s |- _ => exists s end. eexists. eexists. split; [eassumption|]. split; [reflexivity|]. split.
  - eapply rp_other; [eapply (e_task _ _ _ _ _ 0); reflexivity|left; reflexivity|].
    eapply rp_poll; [eapply (e_poll_none _ _ _ _ _ 0 4 100%Z); [reflexivity|reflexivity|apply (wp_running _ _ 0); reflexivity]|reflexivity|discriminate|].
    eapply rp_other; [eapply (e_exit _ _ _ _ _ 0 100%Z (-9)%Z []); [reflexivity|constructor|]|right; reflexivity|].
    { intros fd. split; [intros []|]. intros (Q & k & E & _). cbn in Q, E. do 6 (destruct fd as [|fd]; try discriminate). }
    eapply rp_poll; [eapply (e_poll_some _ _ _ _ _ 0 3 100%Z (-9)%Z); [reflexivity|reflexivity|apply (wp_zombie _ _ 0); reflexivity]|reflexivity|discriminate|].
    eapply rp_other; [eapply (e_poll_call _ _ _ _ _ 0 (-9)%Z); reflexivity|left; reflexivity|]. apply rp_nil.
  - split; [reflexivity|]. split; [reflexivity|]. left. reflexivity.
Qed.
