(** Concrete executions of the epoll watcher: the hypotheses of the theorems in
    EPollProps are met, and the unrestricted claims are false. *)
From Verif Require Import Base EPollModel EPollProofs EPollProofs2 EPollProofs3 EPollProofs4 EPollProofs5 EPollProofs6 EPollProofs7 EPollProps.
From Coq Require Import List ZArith Lia Bool.
Import ListNotations.
Local Open Scope nat_scope.

Definition ex_init : est :=
  mk_est (fun _ => PNone) (fun fd => match fd with 3 => Some OPipeR | 4 => Some OPipeW | 5 => Some OEpoll | _ => None end)
    (fun _ => None) (fun fd => fd =? 3) [] true (Some (3, 4)) TPoll (fun _ => 0) (fun _ => WNone) CIdle [].
Lemma ex_init_ok ordered bad_cb : ereach ordered bad_cb 3 4 5 ex_init.
Proof.
  apply er_init. unfold e_init, ex_init; cbn. repeat (split; [try reflexivity; try congruence|]); try congruence.
  intros fd A B C. do 6 (destruct fd as [|fd]; try congruence; cbn; auto).
Qed.

Ltac side :=
  cbn; try reflexivity; try (eexists; reflexivity); try congruence; try discriminate; try (intros []; cbn; congruence); try (repeat constructor; cbn; tauto); try (intros ? ?; cbn in *; tauto); auto.
(** Compute the state. *)
Ltac flat H := let T := type of H in let T' := eval lazy in T in let K := fresh "R" in assert (K : T') by (exact H); clear H.
Ltac adv c :=
  match goal with R : ereach ?o ?b ?r ?w ?e ?s |- _ =>
    let H := fresh "R" in
    eassert (H : ereach o b r w e _) by (eapply er_step; [exact R|eapply (c o b r e s); side]);
    clear R; flat H
  end.
(** Steps with arguments. *)
Notation with1 c x := (fun o b r e s => c o b r e s x).
Notation with2 c x y := (fun o b r e s => c o b r e s x y).
Notation with3 c x y z := (fun o b r e s => c o b r e s x y z).
Notation with4 c x y z u := (fun o b r e s => c o b r e s x y z u).

Ltac exiff :=
  let fd := fresh "fd" in cbn; unfold fset; intros fd;
  do 10 (destruct fd as [|fd]; cbn;
    [split;
      [intros; repeat match goal with Q : _ \/ _ |- _ => destruct Q end; try discriminate; try contradiction; (split; [reflexivity|eexists; split; reflexivity])
      |let Q := fresh in let k := fresh in let E := fresh in let W := fresh in intros (Q & k & E & W); try discriminate Q; try discriminate E; injection E as E; subst k; cbn in W; try discriminate W; auto 8]|]);
  split; [intros; repeat match goal with Q : _ \/ _ |- _ => destruct Q end; try discriminate; try contradiction
         |let Q := fresh in let k := fresh in let E := fresh in let W := fresh in intros (Q & k & E & W); try discriminate Q; try discriminate E].
(** A child exits; [l] are its pidfds. *)
Ltac exit_step p n st l :=
  match goal with R : ereach ?o ?b ?r ?w ?e ?s |- _ =>
    let H := fresh "R" in
    eassert (H : ereach o b r w e _) by (eapply er_step; [exact R|eapply (e_exit o b r e s p n st l); [reflexivity|repeat constructor; cbn; intuition discriminate|exiff]]);
    clear R; flat H
  end.

(** A child is watched, exits with status 7, and the watcher is closed. *)
Definition run_open (s : est) : Prop :=
  In (LWatched 0) (e_log s) /\ In (LExit (e_wproc s 0) 7%Z) (e_log s) /\ ~ In LClosing (e_log s) /\ ~ called 0 (e_log s).
Example c58_open_nontrivial ordered : exists s, ereach ordered false 3 4 5 s /\ run_open s.
Proof.
  pose proof (ex_init_ok ordered false) as R.
  adv (with2 e_fork 0 100%Z).
  adv (with2 e_watch 0 0).
  adv (with2 e_open 0 6).
  adv (with2 e_dictset 0 6).
  adv (with2 e_register 0 6).
  exit_step 0 100%Z 7%Z [6].
  eexists. split; [eassumption|]. unfold run_open, called; cbn.
  split; [auto|]. split; [auto|]. split; [intuition discriminate|]. intros (st & Q). intuition discriminate.
Qed.

(** The events before close(). *)
Fixpoint older (l : list lev) : list lev := match l with [] => [] | LClosing :: b => b | _ :: l => older l end.
Lemma older_before e l : In e (older l) -> before_closing e l.
Proof.
  induction l as [|x l IH]; cbn; [tauto|]. destruct x; try (intros Q; apply before_cons; auto; fail).
  intros Q. exists [], l. auto.
Qed.

(** The thread asks for the status of process [q]. *)
Ltac wait_step k fd l pid q st :=
  match goal with R : ereach ?o ?b ?r ?w ?e ?s |- _ =>
    let H := fresh "R" in
    eassert (H : ereach o b r w e _) by (eapply er_step; [exact R|eapply (e_wait o b r e s k fd l pid (Some st)); [reflexivity|reflexivity|apply (wp_zombie _ _ q); reflexivity]]);
    clear R; flat H
  end.
(** The thread collects the descriptors to close. *)
Ltac fin2_step l :=
  match goal with R : ereach ?o ?b ?r ?w ?e ?s |- _ =>
    let H := fresh "R" in
    eassert (H : ereach o b r w e _) by (eapply er_step; [exact R|eapply (e_fin2 o b r e s l 3 4); [reflexivity|repeat constructor; cbn; intuition discriminate| |reflexivity]];
      cbn; unfold fset; let fd := fresh "fd" in intros fd; do 10 (destruct fd as [|fd]; cbn; [intuition congruence|]); intuition congruence);
    clear R; flat H
  end.
Ltac start_closed :=
  adv (with2 e_fork 0 100%Z); adv (with2 e_watch 0 0); adv (with2 e_open 0 6); adv (with2 e_dictset 0 6); adv (with2 e_register 0 6);
  exit_step 0 100%Z 7%Z [6];
  adv e_close_start; adv e_close_check; adv (with1 e_close_write 4).
Ltac finish l := adv e_fin1; fin2_step l; adv (with2 e_fin3 3 [4]); adv (with2 e_fin3 4 (@nil nat)); adv e_fin3_end; adv e_fin4; adv e_close_join.

(** Watched, exited, closed: the hypotheses of c94_exactly_once_after_close_partial
    and c95_closed_exactly_once_partial. *)
Example c58_c59_closed_nontrivial : exists s, ereach true false 3 4 5 s /\ In LClosed (e_log s)
  /\ before_closing (LWatched 0) (e_log s) /\ before_closing (LExit (e_wproc s 0) 7%Z) (e_log s) /\ In (LOpened 0) (e_log s)
  /\ In (LCall 0 7%Z) (e_log s) /\ n_closes (OPid 0) (e_log s) = 1.
Proof.
  pose proof (ex_init_ok true false) as R. start_closed.
  adv (with2 e_poll_ordered [6; 3] (@nil nat)).
  adv (with2 e_loop 6 [3]). adv (with3 e_pop 6 [3] 0). wait_step 0 6 [3] 100%Z 0 7%Z.
  adv (with4 e_call 0 7%Z 6 [3]). adv (with2 e_unreg 6 [3]). adv (with2 e_closefd 6 [3]). adv (with2 e_loop 3 (@nil nat)).
  finish (@nil nat).
  eexists. split; [eassumption|]. cbn. split; [auto|].
  repeat split; try (apply older_before; cbn; tauto); cbn; tauto.
Qed.

(** epoll reporting the pipe first: the callback is lost. *)
Definition c94_full_claim : Prop := forall ordered bad_cb rfd wfd efd s k st,
  ereach ordered bad_cb rfd wfd efd s -> bad_cb = false -> In LClosed (e_log s) ->
  before_closing (LWatched k) (e_log s) -> before_closing (LExit (e_wproc s k) st) (e_log s) ->
  In (LCall k st) (e_log s) /\ n_calls k (e_log s) = 1.
Theorem c94_refuted : ~ c94_full_claim.
Proof.
  intros C.
  assert (X : exists s, ereach false false 3 4 5 s /\ In LClosed (e_log s)
    /\ before_closing (LWatched 0) (e_log s) /\ before_closing (LExit (e_wproc s 0) 7%Z) (e_log s) /\ n_calls 0 (e_log s) = 0).
  { pose proof (ex_init_ok false false) as R. start_closed.
    adv (with1 e_poll_any [3]).
    adv (with2 e_loop 3 (@nil nat)).
    adv e_fin1. fin2_step [6]. adv (with2 e_fin3 6 [3; 4]). adv (with2 e_fin3 3 [4]). adv (with2 e_fin3 4 (@nil nat)). adv e_fin3_end. adv e_fin4. adv e_close_join.
    eexists. split; [eassumption|]. cbn. repeat split; try (apply older_before; cbn; tauto); cbn; tauto. }
  destruct X as (s & R & L & B1 & B2 & N). destruct (C _ _ _ _ _ s 0 7%Z R eq_refl L B1 B2). lia.
Qed.
Print Assumptions c94_refuted.

(** A watch_pid that overlaps with close() leaks its pidfd. *)
Definition c95_full_claim : Prop := forall ordered bad_cb rfd wfd efd s k,
  ereach ordered bad_cb rfd wfd efd s -> bad_cb = false -> In LClosed (e_log s) ->
  e_w s k = WEnd -> In (LOpened k) (e_log s) -> n_closes (OPid k) (e_log s) = 1.
Theorem c95_refuted : ~ c95_full_claim.
Proof.
  intros C.
  assert (X : exists s, ereach true false 3 4 5 s /\ In LClosed (e_log s) /\ e_w s 0 = WEnd /\ In (LOpened 0) (e_log s) /\ n_closes (OPid 0) (e_log s) = 0).
  { pose proof (ex_init_ok true false) as R. adv (with2 e_fork 0 100%Z). adv (with2 e_watch 0 0).
    adv e_close_start. adv e_close_check. adv (with1 e_close_write 4).
    adv (with2 e_poll_ordered [3] (@nil nat)). adv (with2 e_loop 3 (@nil nat)). finish (@nil nat).
    adv (with2 e_open 0 6). adv (with2 e_dictset 0 6). adv (with2 e_register_err 0 6). adv (with3 e_kill 0 100%Z 0). adv (with1 e_task_err 0).
    eexists. split; [eassumption|]. cbn. repeat split; tauto. }
  destruct X as (s & R & L & W & O & N). specialize (C _ _ _ _ _ s 0 R eq_refl L W O). lia.
Qed.
Print Assumptions c95_refuted.

(** A callback that raises ends the watching thread and leaks the pidfd. *)
Definition c59_raising_callback_claim : Prop := forall ordered rfd wfd efd s k,
  ereach ordered true rfd wfd efd s -> In LClosed (e_log s) ->
  before_closing (LWatched k) (e_log s) -> n_closes (OPid k) (e_log s) = 1.
Theorem c95_raising_callback_refuted : ~ c59_raising_callback_claim.
Proof.
  intros C.
  assert (X : exists s, ereach true true 3 4 5 s /\ In LClosed (e_log s) /\ before_closing (LWatched 0) (e_log s) /\ n_closes (OPid 0) (e_log s) = 0).
  { pose proof (ex_init_ok true true) as R. start_closed.
    adv (with2 e_poll_ordered [6; 3] (@nil nat)). adv (with2 e_loop 6 [3]). adv (with3 e_pop 6 [3] 0). wait_step 0 6 [3] 100%Z 0 7%Z.
    adv (with4 e_call_raises 0 7%Z 6 [3]). finish (@nil nat).
    eexists. split; [eassumption|]. cbn. repeat split; try (apply older_before; cbn; tauto); cbn; tauto. }
  destruct X as (s & R & L & B & N). specialize (C _ _ _ _ s 0 R L B). lia.
Qed.
Print Assumptions c95_raising_callback_refuted.

(** After such a callback close() may write into a descriptor of other code. *)
Definition c73_raising_callback_claim : Prop := forall ordered rfd wfd efd s o,
  ereach ordered true rfd wfd efd s -> In (LWrote o) (e_log s) -> o = Some OPipeW.
Theorem c96_raising_callback_refuted : ~ c73_raising_callback_claim.
Proof.
  intros C.
  assert (X : exists s, ereach true true 3 4 5 s /\ In (LWrote (Some (OOther 9))) (e_log s)).
  { pose proof (ex_init_ok true true) as R.
    adv (with2 e_fork 0 100%Z); adv (with2 e_watch 0 0); adv (with2 e_open 0 6); adv (with2 e_dictset 0 6); adv (with2 e_register 0 6).
    exit_step 0 100%Z 7%Z [6]. adv e_close_start. adv e_close_check.
    adv (with2 e_poll_ordered [6] (@nil nat)). adv (with2 e_loop 6 (@nil nat)). adv (with3 e_pop 6 (@nil nat) 0). wait_step 0 6 (@nil nat) 100%Z 0 7%Z.
    adv (with4 e_call_raises 0 7%Z 6 (@nil nat)). adv e_fin1. fin2_step (@nil nat). adv (with2 e_fin3 3 [4]). adv (with2 e_fin3 4 (@nil nat)).
    adv (with2 e_open_other 4 9). adv (with1 e_close_write 4).
    eexists. split; [eassumption|]. cbn. tauto. }
  destruct X as (s & R & L). specialize (C _ _ _ _ s _ R L). discriminate.
Qed.
Print Assumptions c96_raising_callback_refuted.

(** close() waiting for the thread, which still has a child to report. *)
Example c73_nontrivial ordered : exists s, ereach ordered false 3 4 5 s /\ e_close s = CJoin /\ In (LWrote (Some OPipeW)) (e_log s).
Proof. pose proof (ex_init_ok ordered false) as R. start_closed. eexists. split; [eassumption|]. cbn. auto. Qed.
(** pidfd_open fails: the child is killed. *)
Example c74_nontrivial ordered : exists s, ereach ordered false 3 4 5 s /\ In (LKill 0) (e_log s).
Proof.
  pose proof (ex_init_ok ordered false) as R. adv (with2 e_fork 0 100%Z). adv (with2 e_watch 0 0). adv (with1 e_open_err 0). adv (with3 e_kill 0 100%Z 0).
  eexists. split; [eassumption|]. cbn. auto.
Qed.
