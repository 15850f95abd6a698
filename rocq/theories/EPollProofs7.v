(** The watching thread makes progress. *)
From Verif Require Import Base EPollModel EPollProofs EPollProofs2 EPollProofs3 EPollProofs4 EPollProofs5 EPollProofs6.
From Coq Require Import List ZArith Lia Bool Wellfounded.
Import ListNotations.
Local Open Scope nat_scope.

Section Inv.
Context (ordered bad_cb : bool) (rfd wfd efd : nat).
Notation estep := (estep ordered bad_cb rfd efd).
Notation ereach := (ereach ordered bad_cb rfd wfd efd).
Notation IB := (IB rfd wfd efd).
Ltac step H := inversion H; subst; clear H; rewrite ?os_close_eq; cbn.

(** A step of the watching thread. *)
Definition tstep (s s' : est) : Prop := estep s s' /\ e_pc s' <> e_pc s.

Record IP (s : est) : Prop := {
  p_th : alive (e_pc s) -> incl (th_fds (e_pc s)) (e_ready s);
  p_fin : exists l, forall f, e_dict s f <> None -> In f l }.

Lemma IP_step s s' : IB s -> IP s -> estep s s' -> IP s'.
Proof.
  intros I P H. constructor.
  - intros L f Q. pose proof (alive_back _ _ _ _ _ _ H L) as L0. pose proof (p_th _ P L0) as B. pose proof (b_th _ _ _ _ I) as T. unfold th_ok in T.
    assert (Q0 : In f (th_fds (e_pc s)) \/ (e_pc s = TPoll /\ In f (e_ready s))).
    { clear B L0 L T. revert Q. step H; auto; try match goal with E : e_pc s = _ |- _ => rewrite E; cbn end; auto; try contradiction.
      - intros Q. right. split; auto. match goal with E : e_ready s = _ |- _ => rewrite E end. apply in_or_app; auto.
      - destruct (fd =? rfd); cbn; auto. intros [].
      - destruct r; cbn; auto. }
    assert (Y : In f (e_ready s)) by (destruct Q0 as [Q0|[_ Q0]]; auto).
    destruct (ready_keep _ _ _ _ _ _ _ H Y) as [Q'|[(l & E & R)|[(l & E)|N]]]; auto; exfalso.
    + rewrite (b_threg_step _ _ _ _ _ _ _ I H f Q) in R. discriminate.
    + rewrite E in T. destruct T as (_ & T & T2 & _). destruct Q0 as [Q0|[E' _]]; [|congruence]. rewrite E in Q0. cbn in Q0. auto.
    + auto.
  - destruct (p_fin _ P) as (l & F).
    assert (X : exists f, forall g, e_dict s' g <> None -> e_dict s g <> None \/ g = f).
    { step H; try (exists 0; auto; fail).
      - exists fd. intros g. unfold fset. destruct (Nat.eqb_spec g fd); auto.
      - exists 0. intros g. unfold fset. destruct (Nat.eqb_spec g fd); auto. }
    destruct X as (f & X). exists (f :: l). intros g Q. destruct (X g Q) as [Z| ->]; [right; auto|left; auto].
Qed.
Lemma reach_IP s : ereach s -> IP s.
Proof.
  induction 1 as [s H|s s' R IH H].
  - destruct H as (P & D & R & Y & O & SS & T & W & C & L & _). constructor; rewrite ?T; cbn.
    + intros _ f [].
    + exists []. intros f. rewrite D. congruence.
  - destruct (reach_IAB _ _ _ _ _ _ R) as (A & I & _). eapply IP_step; eauto.
Qed.

(** *** The thread does not run forever *)
Lemma remove_length f l : NoDup l -> In f l -> S (List.length (remove Nat.eq_dec f l)) = List.length l.
Proof.
  induction 1 as [|x l N D IH]; cbn; [tauto|]. intros [->|Q].
  - destruct (Nat.eq_dec f f); [|congruence]. rewrite notin_remove; auto.
  - destruct (Nat.eq_dec f x) as [->|]; [contradiction|]. cbn. rewrite <- IH; auto.
Qed.
Definition rank (pc : tpc) : nat :=
  match pc with TPoll => 1 | TLoop _ => 6 | TPop _ _ => 5 | TWait _ _ _ => 4 | TCall _ _ _ _ => 3 | TUnreg _ _ => 2 | TClose _ _ => 7 | _ => 0 end.
Definition meas (s : est) : nat := 20 * List.length (e_ready s) - 10 * List.length (th_fds (e_pc s)) + rank (e_pc s).

Lemma meas_step s s' : ereach s -> tstep s s' -> alive (e_pc s') -> meas s' < meas s.
Proof.
  intros R (H & N) L. destruct (reach_IAB _ _ _ _ _ _ R) as (A & I & _). pose proof (reach_IP _ R) as P. pose proof (alive_back _ _ _ _ _ _ H L) as L0.
  pose proof (p_th _ P L0) as IN. pose proof (b_thnd _ _ _ _ I) as ND. pose proof (b_rnd _ _ _ _ I) as RD. pose proof (b_th _ _ _ _ I) as T. unfold th_ok in T.
  assert (LE : List.length (th_fds (e_pc s)) <= List.length (e_ready s)) by (apply NoDup_incl_length; auto).
  pose proof (b_ready _ _ _ _ I) as BR.
  assert (TH : forall l, NoDup l -> incl l (e_ready s) -> List.length l <= List.length (e_ready s)) by (intros; apply NoDup_incl_length; auto).
  unfold meas. revert N L. step H; try congruence; intros _ L; try match goal with E : e_pc s = _ |- _ => rename E into PE; rewrite PE in *; cbn in * end; try contradiction; try lia.
  - match goal with E : e_ready s = _ |- _ => rewrite E in * end. rewrite !app_length in *. destruct l; [congruence|]. cbn in *. lia.
  - match goal with Q : incl l _ |- _ => specialize (TH l ltac:(auto) Q) end. destruct l; [congruence|]. cbn in *. lia.
  - destruct (fd =? rfd); cbn in *; [contradiction|lia].
  - destruct r; cbn; lia.
  - assert (In fd (e_ready s)) by (apply IN; left; auto). pose proof (remove_length fd (e_ready s) RD H). cbn. lia.
  - destruct T as (_ & T & _). assert (Q : ~ In fd (e_ready s)) by (intros Q; apply BR in Q; congruence). destruct (e_fdt s fd); rewrite ?notin_remove; auto; cbn; lia.
Qed.

Lemma dead_step s s' : tstep s s' -> ~ alive (e_pc s) ->
  match e_pc s with
  | TFin1 => e_pc s' = TFin2 | TFin2 => exists l, e_pc s' = TFin3 l
  | TFin3 (_ :: l) => e_pc s' = TFin3 l | TFin3 [] => e_pc s' = TFin4 | TFin4 => e_pc s' = TDone | _ => False end.
Proof.
  intros (H & N) L. revert N. step H; try congruence; intros _; match goal with E : e_pc s = _ |- _ => rewrite E in *; cbn in * end; try tauto; eauto.
Qed.
Definition after (s : est) : est -> est -> Prop := fun x y => tstep y x.
Lemma acc_dead s : ~ alive (e_pc s) -> Acc (fun x y => tstep y x) s.
Proof.
  assert (A0 : forall s, e_pc s = TDone -> Acc (fun x y => tstep y x) s).
  { intros x E. constructor. intros y Q. apply dead_step in Q; rewrite E in *; cbn; tauto. }
  assert (A1 : forall s, e_pc s = TFin4 -> Acc (fun x y => tstep y x) s).
  { intros x E. constructor. intros y Q. apply dead_step in Q; rewrite E in *; cbn in *; auto. }
  assert (A2 : forall l s, e_pc s = TFin3 l -> Acc (fun x y => tstep y x) s).
  { induction l as [|f l IH]; intros x E; constructor; intros y Q; apply dead_step in Q; rewrite E in *; cbn in *; auto. }
  assert (A3 : forall s, e_pc s = TFin2 -> Acc (fun x y => tstep y x) s).
  { intros x E. constructor. intros y Q. apply dead_step in Q; rewrite E in *; cbn in *; auto. destruct Q; eauto. }
  intros N. destruct (e_pc s) eqn:E; cbn in N; try tauto; eauto. constructor. intros y Q. apply dead_step in Q; rewrite E in *; cbn in *; auto.
Qed.
Lemma alive_dec pc : alive pc \/ ~ alive pc.
Proof. destruct pc; cbn; tauto. Qed.
Lemma acc_thread s : ereach s -> Acc (fun x y => tstep y x) s.
Proof.
  remember (meas s) as n eqn:E. revert s E. induction n as [n IH] using lt_wf_ind. intros s E R.
  destruct (alive_dec (e_pc s)) as [L|L]; [|apply acc_dead; auto].
  constructor. intros y Q. destruct (alive_dec (e_pc y)) as [L'|L']; [|apply acc_dead; auto].
  eapply IH; [|reflexivity|econstructor; [exact R|apply Q]]. subst. eapply meas_step; eauto.
Qed.

(** *** The thread is only stuck when there is nothing to do *)
Lemma enabled s : ereach s -> e_pc s <> TDone -> ~ (e_pc s = TPoll /\ e_ready s = []) -> exists s', tstep s s'.
Proof.
  intros R ND NP. destruct (reach_IAB _ _ _ _ _ _ R) as (A & I & _). pose proof (reach_IC _ _ _ _ _ _ R) as C. unfold tstep.
  destruct (e_pc s) eqn:PE; try congruence.
  - destruct (e_ready s) as [|f r] eqn:Y; [tauto|]. destruct ordered eqn:O.
    + eexists. split; [apply (e_poll_ordered _ _ _ _ s [f] r); auto; discriminate|]. cbn. congruence.
    + eexists. split; [apply (e_poll_any _ _ _ _ s [f]); auto; [constructor; [intros []|constructor]|rewrite Y; intros x [<-|[]]; left; auto|discriminate]|]. cbn. congruence.
  - destruct pending as [|f l].
    + eexists. split; [apply e_loop_end; auto|]. cbn. congruence.
    + eexists. split; [eapply e_loop; eauto|]. cbn. destruct (f =? rfd); congruence.
  - destruct (e_dict s fd) as [k|] eqn:D.
    + eexists. split; [eapply e_pop; eauto|]. cbn. congruence.
    + eexists. split; [eapply e_pop_err; eauto|]. cbn. congruence.
  - destruct (twait_zombie _ _ _ _ _ _ _ A I C PE) as (n & st & E).
    eexists. split; [eapply (e_wait _ _ _ _ s k fd rest n (Some st)); eauto; [rewrite E; reflexivity|eapply wp_zombie; eauto]|]. cbn. congruence.
  - eexists. split; [eapply e_call; eauto|]. cbn. congruence.
  - destruct (e_reg s fd) eqn:G.
    + eexists. split; [eapply e_unreg; eauto|]. cbn. congruence.
    + eexists. split; [eapply e_unreg_err; eauto|]. cbn. congruence.
  - eexists. split; [eapply e_closefd; eauto|]. cbn. congruence.
  - eexists. split; [eapply e_fin1; eauto|]. cbn. congruence.
  - destruct (p_fin _ (reach_IP _ R)) as (l & F).
    assert (X : exists l', NoDup l' /\ forall f, In f l' <-> e_dict s f <> None).
    { exists (nodup Nat.eq_dec (filter (fun f => match e_dict s f with Some _ => true | None => false end) l)). split; [apply NoDup_nodup|].
      intros f. rewrite nodup_In, filter_In. split; [intros [_ Q] Z; rewrite Z in Q; discriminate|]. intros Q. split; auto. destruct (e_dict s f); congruence. }
    destruct X as (l' & X1 & X2). eexists. split; [eapply (e_fin2 _ _ _ _ s l' rfd wfd); eauto; apply (b_self _ _ _ _ I); congruence|]. cbn. congruence.
  - destruct l as [|f l].
    + eexists. split; [eapply e_fin3_end; eauto|]. cbn. congruence.
    + eexists. split; [eapply e_fin3; eauto|]. cbn. intros Q. injection Q. clear. revert f. induction l; [discriminate|]. intros f [= -> E]. eauto.
  - eexists. split; [eapply e_fin4; eauto|]. cbn. congruence.
Qed.
End Inv.
