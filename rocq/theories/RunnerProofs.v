From Verif Require Import AsyncModel AsyncSpec AsyncProofs HarvestModel HarvestSpec HarvestProofs HarvestProofs2 AsyncInv
  RunnerModel RunnerSpec.
Open Scope Z_scope.

Lemma app_snoc_split {A} (l : list A) e l1 a l2 : l ++ [e] = l1 ++ a :: l2 ->
  (l2 = [] /\ e = a /\ l1 = l) \/ (exists l3, l2 = l3 ++ [e] /\ l = l1 ++ a :: l3).
Proof.
  intros H. destruct (exists_last (l := a :: l2) ltac:(discriminate)) as (l3 & z & E).
  assert (Q : l ++ [e] = (l1 ++ l3) ++ [z]) by (rewrite H, E, app_assoc; reflexivity).
  apply app_inj_tail in Q as [-> ->]. destruct l3 as [|b l3]; cbn in E.
  - injection E as <- ->. left. rewrite app_nil_r. auto.
  - injection E as <- ->. right. eauto.
Qed.
Lemma never_after_snoc pa pb l e : never_after pa pb l -> (pb e -> forall a, In a l -> ~ pa a) -> never_after pa pb (l ++ [e]).
Proof.
  intros H H1 l1 a l2 b E Pa Hb. apply app_snoc_split in E as [(-> & _)|(l3 & -> & E)]; [destruct Hb|].
  apply in_app_or in Hb as [Hb|[<-|[]]]; [eapply H; eauto|].
  intro Pb. apply (H1 Pb a); [|exact Pa]. rewrite E. apply in_or_app. right. now left.
Qed.
Lemma preceded_snoc pa pb l e : preceded pa pb l -> (pa e -> exists b, In b l /\ pb b) -> preceded pa pb (l ++ [e]).
Proof.
  intros H H1 l1 a l2 E Pa. apply app_snoc_split in E as [(-> & <- & ->)|(l3 & -> & E)]; [auto|]. eapply H; eauto.
Qed.
Lemma never_after_nil pa pb : never_after pa pb [].
Proof. intros [|? ?] a l2 b E; discriminate. Qed.
Lemma preceded_nil pa pb : preceded pa pb [].
Proof. intros [|? ?] a l2 E; discriminate. Qed.

Lemma marks_app a b : marks (a ++ b) = (marks a + marks b)%nat.
Proof. induction a as [|[] a IH]; cbn; auto. Qed.
Lemma audits_app a b : audits (a ++ b) = audits a ++ audits b.
Proof. induction a as [|[] a IH]; cbn; auto. now rewrite IH. Qed.
Lemma signals_app a b : signals (a ++ b) = signals a ++ signals b.
Proof. induction a as [|[] a IH]; cbn; auto. now rewrite IH. Qed.

(** Something was done to the process that may have taken its exit status away. *)

Record XI (x : rx) : Prop := {
  xi_exit : forall s, x_exit x = Some s <-> In (LExit s) (x_log x);
  xi_rc : forall z, x_rc x = Some z <-> In (LCollect z) (x_log x);
  xi_rc_exit : x_rc x <> None -> x_exit x <> None;
  xi_watch : x_watch x <> None -> x_exit x <> None;
  xi_child : x_exit x <> None -> x_child x = true;
  xi_proc : x_proc x = true -> x_child x = true;
  xi_spawn : x_child x = true <-> In LSpawn (x_log x);
  xi_timed : x_timed_out x = true <-> In LExpired (x_log x);
  xi_inside : x_inside x = true -> x_proc x = true;
  xi_abort : x_aborting x = true <-> In LAbort (x_log x);
  xi_abort_killed : x_aborting x = true -> x_exit x <> None \/ In (LSent SIGKILL) (x_log x);
  xi_launch : x_child x = true -> x_proc x = false -> x_launching x = true \/ x_aborting x = true;
  xi_sent : never_after is_exit is_sent (x_log x);
  xi_sig : never_after is_collect is_signal (x_log x);
  xi_reaped : x_reaped x = true -> x_exit x <> None /\ (x_watch x <> None \/ exists e, In e (x_log x) /\ meddled e);
  xi_status : forall z, x_watch x = Some z \/ x_rc x = Some z -> x_exit x = Some z \/ (z = 255 /\ exists e, In e (x_log x) /\ meddled e);
  xi_noabort : x_proc x = true -> x_aborting x = false /\ x_launching x = false;
  xi_last : forall g, x_lastsig x = Some g -> In (LSignal (Some g)) (x_log x)
}.

Lemma XI0 : XI rx0.
Proof.
  constructor; cbn; try tauto; try discriminate; try (intros; split; [discriminate|tauto]);
    try apply never_after_nil.
Qed.

Ltac logs := cbn [x_log x_launching x_aborting x_child x_proc x_exit x_reaped x_watch x_rc x_cancelled x_timer x_timed_out
                  x_lastsig x_tasks x_inside
                  log set_log set_launching set_aborting set_child set_proc set_exit set_reaped set_watch set_rc set_canc
                  set_timer set_timed_out set_lastsig set_tasks set_inside] in *.

Definition quiet_event (e : rev) : Prop :=
  match e with LExit _ | LCollect _ | LSpawn | LExpired | LAbort => False | _ => True end.
Lemma in_quiet a e l : quiet_event e -> ~ quiet_event a -> (In a (l ++ [e]) <-> In a l).
Proof. intros Q N. rewrite in_app_iff. cbn. split; [intros [H|[<-|[]]]; tauto|tauto]. Qed.
Lemma in_snoc_ne (a e : rev) l : a <> e -> (In a (l ++ [e]) <-> In a l).
Proof. intros N. rewrite in_app_iff. cbn. split; [intros [H|[<-|[]]]; [exact H|now elim N]|tauto]. Qed.
Ltac inq := try solve [intros; rewrite !in_snoc_ne by discriminate; auto].
Lemma ex_snoc l e (P : rev -> Prop) : (exists a, In a l /\ P a) -> exists a, In a (l ++ [e]) /\ P a.
Proof. intros (a & A & B). exists a. split; [apply in_or_app; now left|exact B]. Qed.

Lemma XI_log x e : XI x -> quiet_event e -> (is_sent e -> x_exit x = None) -> (is_signal e -> x_rc x = None) -> XI (log e x).
Proof.
  intros I Q S G. pose proof (xi_reaped _ I) as R. pose proof (xi_status _ I) as T.
  destruct I. constructor; logs; auto; try (intros; rewrite in_quiet; auto; tauto).
  - intros H. apply xi_abort_killed0 in H as [H|H]; [now left|right]. apply in_or_app. now left.
  - apply never_after_snoc; [auto|]. intros H a Ha (s & ->). apply xi_exit0 in Ha. rewrite S in Ha by exact H. discriminate.
  - apply never_after_snoc; [auto|]. intros H a Ha (s & ->). apply xi_rc0 in Ha. rewrite G in Ha by exact H. discriminate.
  - intros H. apply R in H as [H1 [H2|H2]]; [tauto|]. split; [exact H1|]. right. now apply ex_snoc.
  - intros z H. apply T in H as [H|(H1 & H2)]; [tauto|right]. split; [exact H1|]. now apply ex_snoc.
  - intros g H. apply in_or_app. left. auto.
Qed.
Lemma XI_timer x b : XI x -> XI (set_timer b x).
Proof. intros []. constructor; logs; auto. Qed.
Lemma XI_canc x b : XI x -> XI (set_canc b x).
Proof. intros []. constructor; logs; auto. Qed.
Lemma XI_tasks x b : XI x -> XI (set_tasks b x).
Proof. intros []. constructor; logs; auto. Qed.
Lemma XI_inside x b : XI x -> (b = true -> x_proc x = true) -> XI (set_inside b x).
Proof. intros [] ?. constructor; logs; auto. Qed.
Lemma XI_lastsig x g : XI x -> In (LSignal (Some g)) (x_log x) -> XI (set_lastsig (Some g) x).
Proof. intros [] ?. constructor; logs; auto. intros ? [= <-]. auto. Qed.
Lemma XI_launching x b : XI x -> (b = true -> x_proc x = false) -> (b = false -> x_child x = true -> x_proc x = true \/ x_aborting x = true) -> XI (set_launching b x).
Proof.
  intros [] H0 H. constructor; logs; auto.
  - intros A B. destruct b; [now left|right]. destruct (H eq_refl A); congruence.
  - intros A. destruct (xi_noabort0 A). split; [assumption|]. destruct b; [rewrite H0 in A by reflexivity; discriminate|reflexivity].
Qed.
Lemma XI_reaped x : XI x -> x_exit x <> None -> (exists e, In e (x_log x) /\ meddled e) -> XI (set_reaped true x).
Proof. intros [] ? ?. constructor; logs; auto. Qed.

Lemma meddled_nonempty x : (exists e, In e (x_log x) /\ meddled e) -> forall e, exists a, In a (x_log (log e x)) /\ meddled a.
Proof. intros H e. now apply ex_snoc. Qed.
Lemma XI_popen_send s x : XI x -> (exists e, In e (x_log x) /\ meddled e) -> XI (popen_send s x).
Proof.
  intros I H. unfold popen_send, popen_poll. destruct (x_exit x) eqn:E.
  - apply XI_reaped; [exact I|congruence|exact H].
  - apply XI_log; cbn; auto. intros (s' & [Q|Q]); discriminate.
Qed.
Lemma popen_send_exit s x : x_exit (popen_send s x) = x_exit x.
Proof. unfold popen_send, popen_poll. destruct (x_exit x) eqn:E; cbn; auto. Qed.

Ltac xifin R T :=
  try solve [split; [intros _; apply in_or_app; right; now left|reflexivity]];
  try solve [apply never_after_snoc; [assumption|intros (s' & Q); discriminate]];
  try solve [apply never_after_snoc; [assumption|intros (s' & [Q|Q]); discriminate]];
  try solve [intros H; apply R in H as [H1 [H2|H2]]; [tauto|]; split; [exact H1|]; right; now apply ex_snoc];
  try solve [intros z H; apply T in H as [H|(H1 & H2)]; [tauto|right]; split; [exact H1|]; now apply ex_snoc].
Section R.
Context (o : opts).
Lemma XI_audit p x : XI x -> (forall s, p = PSignal s -> x_rc x = None) -> XI (audit o p x).
Proof.
  intros I H. unfold audit. destruct (o_audit_callback o); [|exact I]. apply XI_log; cbn; auto.
  - intros (s & Q). discriminate.
  - intros (s & [Q|Q]); [discriminate|]. injection Q as ->. eauto.
Qed.
Lemma audit_fields p x : exists l, x_log (audit o p x) = x_log x ++ l /\ audit o p x = set_log (x_log x ++ l) x
  /\ l = match o_audit_callback o with Some _ => [LAudit p] | None => [] end.
Proof.
  unfold audit. destruct (o_audit_callback o); [exists [LAudit p]; auto|exists []]. rewrite app_nil_r. repeat split. destruct x; reflexivity.
Qed.
Lemma XI_signal sig x : XI x -> x_rc x = None -> XI (signal_x o sig x).
Proof.
  intros I H. unfold signal_x.
  assert (R1 : x_rc (audit o (PSignal sig) x) = None).
  { destruct (audit_fields (PSignal sig) x) as (l & _ & -> & _). exact H. }
  assert (I1 : XI (log (LSignal sig) (audit o (PSignal sig) x))).
  { apply XI_log; [apply XI_audit; auto|exact Logic.I|intros (s & Q); discriminate|intros _; exact R1]. }
  assert (M1 : exists e, In e (x_log (log (LSignal sig) (audit o (PSignal sig) x))) /\ meddled e).
  { exists (LSignal sig). split; [apply in_or_app; right; now left|left; eauto]. }
  destruct sig as [s|]; [|now apply XI_popen_send].
  apply XI_lastsig; [now apply XI_popen_send|].
  unfold popen_send, popen_poll. destruct (x_exit _) eqn:E; cbn; rewrite ?in_app_iff; cbn; auto.
Qed.

Lemma XI_rstep x e x' c : XI x -> rstep o x e = Some (x', c) -> XI x'.
Proof.
  intros I. destruct e; cbn [rstep].
  - destruct (x_launching x && negb (x_child x)) eqn:E; [|discriminate]. intros [= <- _].
    apply andb_true_iff in E as [E1 E2]. apply negb_true_iff in E2.
    pose proof (xi_reaped _ I) as R. pose proof (xi_status _ I) as T.
    destruct I. constructor; logs; auto; inq; xifin R T.
  - destruct (x_child x) eqn:E1; [|discriminate]. destruct (x_exit x) eqn:E2; [discriminate|]. intros [= <- _].
    pose proof (xi_reaped _ I) as R. pose proof (xi_status _ I) as T.
    destruct I. constructor; logs; auto; inq; xifin R T; try congruence.
    + intros s'. rewrite in_app_iff, <- xi_exit0, E2. cbn. split; [intros [= ->]; auto|intros [Q|[Q|[]]]; congruence].
    + intros _. left. discriminate.
    + intros H. apply R in H as [H1 _]. congruence.
    + intros z [H|H]; exfalso; [apply xi_watch0|apply xi_rc_exit0]; congruence.
  - unfold waitpid_status. destruct (x_exit x) as [s|] eqn:E; [|discriminate]. destruct (x_watch x) eqn:E2; [discriminate|].
    intros [= <- _]. pose proof (xi_reaped _ I) as R. pose proof (xi_status _ I) as T.
    destruct I. constructor; logs; auto; try congruence.
    + intros _. split; [congruence|]. left. discriminate.
    + intros z [[= <-]|H]; [|auto]. destruct (x_reaped x); [|left; exact E].
      destruct (R eq_refl) as [_ [H|H]]; [congruence|]. right. split; [reflexivity|exact H].
  - destruct (x_watch x) as [z|] eqn:E; [|discriminate]. destruct (x_rc x) eqn:E2; [discriminate|]. intros [= <- _].
    pose proof (xi_reaped _ I) as R. pose proof (xi_status _ I) as T.
    destruct I. constructor; logs; auto; inq; xifin R T; try congruence.
    + intros z'. rewrite in_app_iff, <- xi_rc0, E2. cbn. split; [intros [= ->]; auto|intros [Q|[Q|[]]]; congruence].
    + intros _. apply xi_watch0. congruence.
    + intros z' [H|[= <-]]; [assert (Q : x_watch x = Some z' \/ x_rc x = Some z') by (left; congruence)
                            |assert (Q : x_watch x = Some z \/ x_rc x = Some z) by now left];
        apply T in Q as [Q|(Q1 & Q2)]; auto; right; (split; [exact Q1|now apply ex_snoc]).
  - destruct (x_timer x) eqn:E; [|discriminate]. intros [= <- _].
    pose proof (xi_reaped _ I) as R. pose proof (xi_status _ I) as T.
    destruct I. constructor; logs; auto; inq; xifin R T.
  - destruct (_ && _) eqn:E; [|discriminate]. intros [= <- _].
    apply andb_true_iff in E as [E E3]. apply andb_true_iff in E as [E1 E2]. apply negb_true_iff in E3.
    pose proof (xi_reaped _ I) as R. pose proof (xi_status _ I) as T.
    unfold popen_send, popen_poll. logs. destruct (x_exit x) as [s|] eqn:EX.
    + logs. destruct I. constructor; logs; auto; inq; xifin R T; try congruence.
      * intros _. left. congruence.
      * intros _. split; [congruence|]. right. exists LAbort. split; [apply in_or_app; right; now left|right; now left].
      * intros z H. apply T in H as [H|(H1 & H2)]; [left; congruence|right]. split; [exact H1|]. now apply ex_snoc.
      * intros H. destruct (xi_noabort0 H). congruence.
    + destruct I. constructor; logs; auto; inq; xifin R T; try congruence.
      * split; [intros _|reflexivity]. rewrite !in_app_iff. cbn. auto.
      * intros _. right. rewrite !in_app_iff. cbn. auto.
      * apply never_after_snoc; [apply never_after_snoc; [auto|]; intros (s' & Q); discriminate|].
        intros _ a Ha (s' & ->). rewrite in_app_iff in Ha. destruct Ha as [Ha|[Ha|[]]]; [|discriminate].
        apply xi_exit0 in Ha. congruence.
      * apply never_after_snoc; [apply never_after_snoc; [auto|]|]; intros (s' & [Q|Q]); discriminate.
      * intros H. apply R in H as [H1 _]. congruence.
      * intros z H. apply T in H as [H|(H1 & H2)]; [left; congruence|right]. split; [exact H1|]. now apply ex_snoc, ex_snoc.
      * intros H. destruct (xi_noabort0 H). congruence.
  - intros [= <- _]. apply XI_log; cbn; auto; [intros (s & Q)|intros (s & [Q|Q])]; discriminate.
  - destruct (x_inside x) eqn:E; [|discriminate]. destruct (returncode x) eqn:E2; intros [= <- _]; [exact I|].
    apply (XI_signal (Some s) (log LUser x)); [apply XI_log; cbn; auto; [intros (s' & Q)|intros (s' & [Q|Q])]; discriminate|].
    logs. unfold returncode in E2. rewrite (xi_inside _ I E) in E2. cbn in E2.
    destruct (x_rc x); [|reflexivity]. destruct (x_lastsig x); [destruct (_ =? _)|]; discriminate.
  - destruct (x_inside x) eqn:E; [|discriminate]. destruct (returncode x) eqn:E2; intros [= <- _]; [exact I|].
    apply XI_signal; [apply XI_log; cbn; auto; [intros (s' & Q)|intros (s' & [Q|Q])]; discriminate|].
    logs. unfold returncode in E2. rewrite (xi_inside _ I E) in E2. cbn in E2.
    destruct (x_rc x); [|reflexivity]. destruct (x_lastsig x); [destruct (_ =? _)|]; discriminate.
Qed.
End R.
