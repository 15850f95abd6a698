From Verif Require Import AsyncModel AsyncSpec AsyncProofs HarvestModel HarvestSpec HarvestProofs HarvestProofs2 AsyncInv
  RunnerModel RunnerSpec RunnerProofs RunnerProofs2.
Open Scope Z_scope.

(** Inversion of the small steps of a program. *)
Section Inv.
Context {X K V : Type}.
Notation world := (world X K V).
Notation M := (@M X K V).
Definition upd_x (w : world) (f : X -> X) : world := mk_world (w_tasks w) (f (w_x w)) (w_hist w).
Lemma i_getx {A B} (f : X -> A) (k : A -> M B) w r w' : bindM (getx f) k w r w' -> k (f (w_x w)) w r w'.
Proof. intros [(a & w1 & [Q ->] & H)|(e & [Q _] & _)]; [injection Q as ->; exact H|discriminate]. Qed.
Lemma i_getM {B} (k : world -> M B) w r w' : bindM getM k w r w' -> k w w r w'.
Proof. intros [(a & w1 & [Q ->] & H)|(e & [Q _] & _)]; [injection Q as ->; exact H|discriminate]. Qed.
Lemma i_modx {B} (f : X -> X) (k : unit -> M B) w r w' : bindM (modx f) k w r w' -> k tt (upd_x w f) r w'.
Proof. intros [([] & w1 & [_ ->] & H)|(e & [Q _] & _)]; [exact H|discriminate]. Qed.
Lemma i_ret {A B} (a : A) (k : A -> M B) w r w' : bindM (ret a) k w r w' -> k a w r w'.
Proof. intros [(b & w1 & [Q ->] & H)|(e & [Q _] & _)]; [injection Q as ->; exact H|discriminate]. Qed.
Lemma i_assert {B} b (k : unit -> M B) w r w' : bindM (assertM b) k w r w' ->
  (b = true /\ k tt w r w') \/ (b = false /\ r = Err AssertionError /\ w' = w).
Proof.
  destruct b; cbn [assertM].
  - intros [([] & w1 & [_ ->] & H)|(e & [Q _] & _)]; [left; auto|discriminate].
  - intros [([] & w1 & [Q _] & H)|(e & [[= ->] ->] & ->)]; [discriminate|right; auto].
Qed.
(** The tail of a sequence ending in raise. *)
Lemma i_then_raise {A} (m : M unit) e w (r : res A) w' : bindM m (fun _ => raise e) w r w' -> exists r1, m w r1 w' /\ match r1 with Ok _ => r = Err e | Err e' => r = Err e' end.
Proof. intros [([] & w1 & H & [-> ->])|(e' & H & ->)]; [exists (Ok tt)|exists (Err e')]; auto. Qed.
End Inv.

Lemma rc_dec {A} (x : option A) : x = None \/ x <> None.
Proof. destruct x; [right; discriminate|left; reflexivity]. Qed.

Section R.
Context (o : opts) (ext : bool).
Notation world := (world rx rkind unit).
Notation M := (@M rx rkind unit).
Notation rstep := (rstep o).
Notation rfinish := (rfinish ext).
Notation harvest := (harvest rstep rfinish).

(** Log events that only the environment or the modelled code's signals add. *)
Definition run_event (e : rev) : Prop :=
  match e with LAudit PStart | LAudit (PStop _) | LClosed => False | _ => True end.
(** How the world develops while the main task awaits. *)
Definition quiet (e : rev) : Prop :=
  match e with LUser | LSignal _ | LAudit _ | LClosed => False | _ => True end.
Record envrel (w0 w : world) (l : list rev) (h : list (hev unit)) : Prop := {
  er_frame : frame (w_x w0) (w_x w) l;
  er_hist : w_hist w = w_hist w0 ++ h;
  er_marks : marks l = cancels h;
  er_run : Forall run_event l;
  er_audit : o_audit_callback o <> None -> audits l = map PSignal (signals l);
  er_quiet : x_inside (w_x w0) = false -> Forall quiet l;
  er_child : x_launching (w_x w0) = false -> x_child (w_x w) = true -> x_child (w_x w0) = true
}.
Lemma envrel_refl w : envrel w w [] [].
Proof. constructor; auto; [apply frame_refl|now rewrite app_nil_r]. Qed.
Lemma env_piece_quiet x l : env_piece o x l -> x_inside x = false -> Forall quiet l.
Proof.
  intros [->|[->|[(s & ->)|[(s & ->)|[->|[->|[(l' & -> & [->| ->])|(IN & s & l' & -> & _ & L)]]]]]]] A; try congruence; repeat constructor.
Qed.
Lemma env_piece_audit x l : env_piece o x l -> o_audit_callback o <> None -> audits l = map PSignal (signals l).
Proof.
  intros [->|[->|[(s & ->)|[(s & ->)|[->|[->|[(l' & -> & [->| ->])|(IN & s & l' & -> & _ & L)]]]]]]] A; try reflexivity.
  destruct (o_audit_callback o); [|congruence]. destruct L as [->|(g & ->)]; reflexivity.
Qed.
Lemma env_piece_run x l : env_piece o x l -> Forall run_event l.
Proof.
  intros [->|[->|[(s & ->)|[(s & ->)|[->|[->|[(l' & -> & [->| ->])|(IN & s & l' & -> & _ & L)]]]]]]]; repeat constructor.
  rewrite Forall_app. split; [destruct (o_audit_callback o); repeat constructor|]. constructor; [exact I|].
  destruct L as [->|(g & ->)]; repeat constructor.
Qed.
Lemma stable_envrel w0 : stable rstep rfinish (fun w => exists l h, envrel w0 w l h).
Proof.
  constructor.
  - intros w [i r|e] w' c (l & h & E); cbn.
    + destruct (nth_error (w_tasks w) i) as [t|] eqn:Et; [|discriminate]. destruct (t_out t) eqn:Eo; [discriminate|].
      destruct (rfinish (w_x w) t r) as [x'|] eqn:Q; [|discriminate]. intros [= <- <-].
      pose proof (rfinish_frame _ _ _ _ _ Q) as F. pose proof (rfinish_cases _ _ _ _ _ Q) as C.
      exists l, (h ++ [HDone i r]). destruct E as [E1 E2 E3 E5 E6 E7 E4]. constructor; cbn.
      * rewrite <- (app_nil_r l). eapply frame_trans; eauto.
      * now rewrite E2, app_assoc.
      * rewrite cancels_app. cbn. lia.
      * exact E5.
      * exact E6.
      * exact E7.
      * intros L1 L2. apply E4; [exact L1|].
        destruct C as [->|[(_ & -> & _)|[(_ & _ & _ & _ & ->)|(_ & _ & _ & -> & _)]]]; exact L2.
    + destruct (rstep (w_x w) e) as [[x' c']|] eqn:Q; [|discriminate]. intros [= <- <-].
      destruct (rstep_frame _ _ _ _ _ Q) as (l2 & F & P & MK).
      exists (l ++ l2), (h ++ (if c' then [HCancel] else [])). pose proof (spawn_launching _ _ _ _ _ Q) as SL.
      destruct E as [E1 E2 E3 E5 E6 E7 E4]. constructor; cbn.
      * eapply frame_trans; eauto.
      * now rewrite E2, app_assoc.
      * rewrite marks_app, cancels_app, MK, E3. destruct c'; reflexivity.
      * apply Forall_app. split; [exact E5|]. eapply env_piece_run; eauto.
      * intros A. rewrite audits_app, signals_app, map_app, E6 by exact A. f_equal. eapply env_piece_audit; eauto.
      * intros A. apply Forall_app. split; [auto|]. eapply env_piece_quiet; eauto. now rewrite (fr_inside _ _ _ E1).
      * intros L1 L2. apply SL in L2 as [L2|L2]; [now apply E4|].
        apply (fr_launching _ _ _ E1) in L2. congruence.
  - intros w (l & h & [E1 E2 E3 E5 E6 E7 E4]). exists l, (h ++ [HTimer]). constructor; cbn; auto.
    + now rewrite E2, app_assoc.
    + rewrite cancels_app. cbn. lia.
  - intros w i (l & h & [E1 E2 E3 E5 E6 E7 E4]). unfold req. destruct (task_done w i); [exists l, h; now constructor|].
    exists l, (h ++ [HReq i]). constructor; cbn; auto.
    + now rewrite E2, app_assoc.
    + rewrite cancels_app. cbn. lia.
  - intros w k (l & h & [E1 E2 E3 E5 E6 E7 E4]). exists l, h. constructor; cbn; auto.
Qed.
Lemma harvest_envrel aws t cf w r w' : harvest aws t cf w r w' -> exists l h, envrel w w' l h.
Proof.
  intros H. apply (k_harvest _ _ _ (stable_envrel w) aws t cf w r w'); [|exact H]. exists [], []. apply envrel_refl.
Qed.

(** The number of cancellations of the main task is the same in the log and in
    the history. *)
Definition MK (w : world) : Prop := marks (x_log (w_x w)) = cancels (w_hist w).

(** Every finished task is in the history; the exceptions held are Exceptions. *)
Definition HI (w : world) : Prop := forall i r, task_out w i = Some r -> In (HDone i r) (w_hist w) /\ forall e, r = TFail e -> is_Exception e = true.
Lemma stable_HI : stable rstep rfinish HI.
Proof.
  constructor.
  - intros w [i r|e] w' c H; cbn.
    + destruct (nth_error (w_tasks w) i) as [t|] eqn:Et; [|discriminate]. destruct (t_out t) eqn:Eo; [discriminate|].
      destruct (rfinish (w_x w) t r) as [x'|] eqn:Q; [|discriminate]. intros [= <- <-]. intros j r'. unfold task_out. cbn.
      destruct (Nat.eq_dec i j) as [<-|D].
      * rewrite (nth_upd_same _ _ _ _ Et). cbn. intros [= <-]. split; [apply in_or_app; right; now left|].
        intros e ->. unfold RunnerModel.rfinish in Q. destruct (t_kind t), (is_Exception e); try discriminate; reflexivity.
      * rewrite nth_upd_other by exact D. intros N. destruct (H j r' N). split; [apply in_or_app; now left|assumption].
    + destruct (rstep (w_x w) e) as [[x' c']|] eqn:Q; [|discriminate]. intros [= <- <-]. intros j r' N.
      destruct (H j r' N). split; [apply in_or_app; now left|assumption].
  - intros w H j r' N. destruct (H j r' N). split; [apply in_or_app; now left|assumption].
  - intros w i H j r'. rewrite req_task_out. intros N. destruct (H j r' N). split; [|assumption].
    unfold req. destruct (task_done w i); [assumption|apply in_or_app; now left].
  - intros w k H j r'. unfold task_out. cbn. destruct (Nat.lt_ge_cases j (List.length (w_tasks w))) as [L|L].
    + rewrite nth_error_app1 by exact L. apply H.
    + rewrite nth_error_app2 by exact L. destruct (j - _)%nat as [|n]; cbn; [discriminate|destruct n; discriminate].
Qed.

(** A waiter that has ended has stopped the timer. *)
Definition TM (w : world) : Prop := forall i t, nth_error (w_tasks w) i = Some t -> t_kind t = KWaiter -> t_out t <> None -> x_timer (w_x w) = false.
Lemma rfinish_waiter x t r x' : rfinish x t r = Some x' -> t_kind t = KWaiter -> x_timer x' = false.
Proof.
  intros H K. unfold RunnerModel.rfinish in H. rewrite K in H. destruct r as [[]|e|]; [destruct (x_rc x)|discriminate|destruct (_ || _)];
    try discriminate; injection H as <-; reflexivity.
Qed.
Lemma timer_false x x' l : frame x x' l -> x_timer x = false -> x_timer x' = false.
Proof. intros F H. destruct (x_timer x') eqn:Q; [|reflexivity]. apply (fr_timer _ _ _ F) in Q. congruence. Qed.
Lemma stable_TM : stable rstep rfinish TM.
Proof.
  constructor.
  - intros w [i r|e] w' c H; cbn.
    + destruct (nth_error (w_tasks w) i) as [t|] eqn:Et; [|discriminate]. destruct (t_out t) eqn:Eo; [discriminate|].
      destruct (rfinish (w_x w) t r) as [x'|] eqn:Q; [|discriminate]. intros [= <- <-]. intros j u. cbn.
      destruct (Nat.eq_dec i j) as [<-|D].
      * rewrite (nth_upd_same _ _ _ _ Et). intros [= <-] K _. cbn in K. eapply rfinish_waiter; eauto.
      * rewrite nth_upd_other by exact D. intros N K Do. specialize (H j u N K Do). eapply timer_false; [eapply rfinish_frame; eauto|exact H].
    + destruct (rstep (w_x w) e) as [[x' c']|] eqn:Q; [|discriminate]. intros [= <- <-]. intros j u N K Do. cbn in *.
      destruct (rstep_frame _ _ _ _ _ Q) as (l2 & F & _). eapply timer_false; eauto.
  - intros w H. exact H.
  - intros w i H. unfold req. destruct (task_done w i) eqn:Dn; [exact H|]. intros j u Eu K Do. cbn in *.
    destruct (Nat.eq_dec i j) as [<-|D].
    + destruct (nth_error (w_tasks w) i) as [t|] eqn:Et; [|rewrite nth_upd_none in Eu by exact Et; congruence].
      rewrite (nth_upd_same _ _ _ _ Et) in Eu. injection Eu as <-. cbn in *. eapply H; eauto.
    + rewrite nth_upd_other in Eu by exact D. eapply H; eauto.
  - intros w k H j u Eu K Do. cbn in *. destruct (Nat.lt_ge_cases j (List.length (w_tasks w))) as [L|L].
    + rewrite nth_error_app1 in Eu by exact L. eapply H; eauto.
    + rewrite nth_error_app2 in Eu by exact L. destruct (j - _)%nat as [|n]; cbn in Eu; [injection Eu as <-; now elim Do|destruct n; discriminate].
Qed.

(** harvest that ends well has not cancelled anything. *)
Lemma harvest_ok_no_req aws t cf (w w' : world) : harvest aws t cf w (Ok tt) w' -> aws <> [] ->
  exists h, w_hist w' = w_hist w ++ h /\ (forall i, ~ In (HReq i) h) /\ ~ In HCancel h
  /\ (exists w0, extends w [] w0 /\ extends w0 h w')
  /\ (forall i, In i (managed w aws) -> task_done w' i = true /\ forall e, task_out w' i <> Some (TFail e)).
Proof.
  intros H N. destruct (harvest_facts _ _ _ _ _ _ _ _ H N) as (w0 & rw & h1 & h2 & w1 & E0 & _ & F & R).
  destruct rw as [[]|e]; [|discriminate]. destruct R as [(_ & R)|(e & Q & _)]; [|discriminate].
  destruct (hf_ok _ _ _ _ _ _ _ _ _ F eq_refl) as (D & NC).
  assert (NF : forall j, In j (managed w aws) -> out_failed (task_out w1 j) = false).
  { intros j Hj. destruct (out_failed (task_out w1 j)) eqn:Q; [|reflexivity].
    apply (out_failed_ext _ _ _ _ (hf_e2 _ _ _ _ _ _ _ _ _ F)) in Q. unfold out_failed in Q.
    destruct (task_out w' j) as [[| |]|] eqn:Qo; try discriminate. now elim (R j e Hj). }
  assert (NR : forall i, ~ In (HReq i) h2).
  { intros i Q. apply (hf_why _ _ _ _ _ _ _ _ _ F) in Q as (Hi & U & _).
    destruct (hf_to_conv _ _ _ _ _ _ _ _ _ F NC) as [Q|[Q|(Q & _)]]; try discriminate; eauto. }
  assert (H2 : h2 = []).
  { destruct (hf_first _ _ _ _ _ _ _ _ _ F NC) as [->|(i & h' & ->)]; [reflexivity|]. elim (NR i). now left. }
  subst h2. exists (h1 ++ []). split; [eapply harvest_hist; eauto|]. rewrite app_nil_r. repeat split; auto.
  - intros i Q. exact (hf_nr _ _ _ _ _ _ _ _ _ F i Q).
  - exists w0. split; [exact E0|]. rewrite <- (app_nil_r h1). eapply extends_trans; [exact (hf_e1 _ _ _ _ _ _ _ _ _ F)|exact (hf_e2 _ _ _ _ _ _ _ _ _ F)].
Qed.

(** A waiter that has not been asked to stop ends because the status is known. *)
Lemma waiter_done w i t : TI ext w -> ext = false -> nth_error (w_tasks w) i = Some t -> t_kind t = KWaiter -> t_creq t = 0%nat ->
  task_done w i = true -> x_rc (w_x w) <> None.
Proof.
  intros T E N K C D. specialize (T i t N). rewrite K in T. unfold task_done, task_out in D. rewrite N in D.
  destruct (t_out t) as [[[]|e|]|]; [exact T|destruct T| |discriminate]. destruct T; congruence.
Qed.
Lemma harvest_waiter_ok t w w' : harvest [AwCoro KWaiter] t false w (Ok tt) w' -> TI ext w -> ext = false -> x_rc (w_x w') <> None.
Proof.
  intros H T E. pose proof (k_harvest _ _ _ (stable_TI o ext) _ _ _ _ _ _ T H) as T'.
  pose proof H as H0'. pose proof H as H0. apply harvest_ok_no_req in H0 as (h & _ & NR & _ & _ & D); [|discriminate].
  destruct (D (List.length (w_tasks w))) as [D1 _]; [now left|].
  unfold HarvestModel.harvest in H. destruct H as [(ts & w1 & H1 & H2)|(e & _ & Q)]; [|discriminate].
  cbn in H1. unfold spawn in H1.
  destruct H1 as [(i & wa & [[= ->] ->] & H1)|(e & [Q _] & _)]; [|discriminate].
  destruct H1 as [(is & wb & [[= ->] ->] & [[= ->] ->])|(e & [Q _] & _)]; [|discriminate].
  set (n := List.length (w_tasks w)) in *. set (w1 := mk_world (w_tasks w ++ [mk_task KWaiter None 0]) (w_x w) (w_hist w)) in *.
  assert (N1 : nth_error (w_tasks w1) n = Some (mk_task KWaiter None 0)).
  { cbn. rewrite nth_error_app2 by reflexivity. now rewrite Nat.sub_diag. }
  destruct (harvest_tasks_spec _ _ _ _ _ _ _ _ H2) as (rw & HW & RW); [discriminate|].
  destruct (hw_facts_intro _ _ _ _ _ _ _ _ HW) as (h1 & h2 & wm & F); [discriminate|].
  pose proof (extends_trans _ _ _ _ _ (hf_e1 _ _ _ _ _ _ _ _ _ F) (hf_e2 _ _ _ _ _ _ _ _ _ F)) as (EH & EX & _).
  destruct (EX n _ N1) as (t' & N' & K' & _ & C').
  eapply (waiter_done w' n t'); eauto. rewrite C'. cbn.
  (* no request *)
  destruct (reqs n (h1 ++ h2)) eqn:Q; [reflexivity|]. exfalso.
  assert (Q2 : In (HReq n) (h1 ++ h2)) by (apply reqs_In; rewrite Q; lia).
  cbn in EH. apply harvest_ok_no_req in H0' as (h' & EH' & NR' & _); [|discriminate].
  assert (h' = h1 ++ h2) by (rewrite EH' in EH; now apply app_inv_head in EH). subst h'. exact (NR' n Q2).
Qed.
End R.
