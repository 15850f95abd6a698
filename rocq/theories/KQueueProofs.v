(** Invariants of the kqueue watcher (no statement of a property here). *)
From Verif Require Import Base EPollModel EPollProofs KQueueModel KQueueSpec.
From Coq Require Import List ZArith Lia Bool Permutation.
Import ListNotations.
Local Open Scope nat_scope.

Lemma pset_same {A} (f : Z -> A) i v : pset f i v i = v.
Proof. unfold pset. now rewrite Z.eqb_refl. Qed.
Lemma pset_other {A} (f : Z -> A) i v j : j <> i -> pset f i v j = f j.
Proof. unfold pset. intros H. destruct (Z.eqb_spec j i); congruence. Qed.
Ltac fz := fs; unfold pset in *;
  repeat match goal with
  | H : context [Z.eqb ?a ?b] |- _ => destruct (Z.eqb_spec a b); try subst
  | |- context [Z.eqb ?a ?b] => destruct (Z.eqb_spec a b); try subst
  end.

Lemma qwait_inv pr n r pr' : qwait pr n r pr' ->
  (pr' = pr /\ r = None /\ (exists q, pr q = QRun n \/ exists s, pr q = QDying n s))
  \/ (pr' = pr /\ r = Some 255%Z /\ forall q, ~ qholds (pr q) n)
  \/ exists q s, pr q = QZombie n s /\ r = Some s /\ pr' = fset pr q (QReaped n s).
Proof. destruct 1; [left|left|right; right|right; left]; eauto 8. Qed.
Lemma holds_pid_of x n : qholds x n -> qpid x = Some n.
Proof. destruct x; cbn; intros; try contradiction; congruence. Qed.

Definition kcalled (k : nat) (l : list qlev) : Prop := exists st, In (QLCall k st) l.

(** The watching thread is busy with watch k, having taken its entry. *)
Definition handling (x : qtpc) (k : nat) : Prop :=
  match x with TkWait j _ => j = k | TkSleep j _ => j = k | TkWait2 j _ => j = k | _ => False end.
Definition calling (x : qtpc) (k : nat) : Prop := match x with TkCall j _ _ => j = k | _ => False end.
Definition busy x k := handling x k \/ calling x k.
(** The events it has fetched and not yet handled. *)
Definition pend (x : qtpc) : list qev :=
  match x with
  | TkLoop l => l | TkPop p l => QProc p :: l | TkWait _ l => l | TkSleep _ l => l | TkWait2 _ l => l | TkCall _ _ l => l
  | _ => [] end.
Definition stopped (x : qtpc) : Prop := match x with TkFin => True | TkDone => True | _ => False end.
Definition procs (l : list qev) : list nat := flat_map (fun e => match e with QProc p => [p] | QTimer => [] end) l.
Definition queue (s : kst) : list nat := procs (pend (k_pc s)) ++ procs (k_ready s).

Definition before_call (x : qpc) : Prop :=
  match x with QIdle | QCheck | QSet | QAdd | QPop | QWait | QTask | QPoll _ | QRejected | QRaised => True | _ => False end.
Definition not_reaped (x : qpc) : Prop :=
  match x with QCheck | QSet | QAdd | QPop | QWait | QTask | QPoll _ => True | _ => False end.
Definition unqueued (x : qpc) : Prop := match x with QOk => False | _ => True end.

Lemma procs_app a b : procs (a ++ b) = procs a ++ procs b.
Proof. apply flat_map_app. Qed.
Lemma procs_in p l : In p (procs l) <-> In (QProc p) l.
Proof.
  unfold procs. rewrite in_flat_map. split.
  - intros ([q|] & A & B); cbn in B; [destruct B as [->|[]]; exact A|destruct B].
  - intros H. exists (QProc p). cbn. auto.
Qed.
Lemma procs_perm a b : Permutation a b -> Permutation (procs a) (procs b).
Proof. apply Permutation_flat_map. Qed.

Section Inv.
Context (ordered quick bad_cb : bool).
Notation kstep := (kstep ordered quick bad_cb).
Notation kreach := (kreach ordered quick bad_cb).

(** *** Processes and entries *)
Record KA (s : kst) : Prop := {
  ka_pid : forall p q n, qholds (k_proc s p) n -> qholds (k_proc s q) n -> p = q;
  ka_dist : forall j k, k_w s j <> QIdle -> k_w s k <> QIdle -> k_wproc s j = k_wproc s k -> j = k;
  ka_arg : forall k, k_w s k <> QIdle -> qpid (k_proc s (k_wproc s k)) = Some (k_pid s k);
  ka_exit : forall p st, In (QLExit p st) (k_log s) <-> exists n, k_proc s p = QZombie n st \/ k_proc s p = QReaped n st }.


(** What a step does to the process table, ... *)
Definition kproc_rel (s s' : kst) : Prop :=
  (k_proc s' = k_proc s /\ forall p st, In (QLExit p st) (k_log s') <-> In (QLExit p st) (k_log s))
  \/ (exists p n, k_proc s p = QNone /\ (forall q, ~ qholds (k_proc s q) n) /\ k_proc s' = fset (k_proc s) p (QRun n) /\ k_log s' = k_log s)
  \/ (exists p n st, k_proc s p = QRun n /\ k_proc s' = fset (k_proc s) p (QDying n st) /\ k_log s' = k_log s)
  \/ (exists p n st, k_proc s p = QDying n st /\ k_proc s' = fset (k_proc s) p (QZombie n st) /\ k_log s' = QLExit p st :: k_log s)
  \/ (exists p n st, k_proc s p = QZombie n st /\ k_proc s' = fset (k_proc s) p (QReaped n st) /\ k_log s' = k_log s).
(** ... and to the watches. *)
Definition kwatch_rel (s s' : kst) : Prop :=
  (k_wproc s' = k_wproc s /\ k_pid s' = k_pid s /\ (k_w s' = k_w s \/ exists k v, k_w s k <> QIdle /\ v <> QIdle /\ k_w s' = fset (k_w s) k v))
  \/ (exists k p n, k_w s k = QIdle /\ qholds (k_proc s p) n /\ (forall j, k_w s j <> QIdle -> k_wproc s j <> p)
        /\ k_wproc s' = fset (k_wproc s) k p /\ k_pid s' = fset (k_pid s) k n /\ k_w s' = fset (k_w s) k QCheck /\ k_proc s' = k_proc s).

Ltac steps H := inversion H; subst; clear H.
Ltac waits := repeat match goal with
  | H : qwait _ _ _ _ |- _ => let q := fresh "q" in let st := fresh "st" in let Q := fresh "Q" in
      destruct (qwait_inv _ _ _ _ H) as [(-> & -> & Q)|[(-> & -> & Q)|(q & st & Q & -> & ->)]]; clear H
  end.
Lemma kstep_proc s s' : kstep s s' -> kproc_rel s s'.
Proof.
  intros H. unfold kproc_rel. steps H; waits; cbn.
  all: try (left; split; [reflexivity|]; cbn; intuition (try discriminate); fail).
  all: eauto 12.
  all: right; right; right; right; do 3 eexists; repeat split; eauto.
Qed.
Lemma kstep_watch s s' : kstep s s' -> kwatch_rel s s'.
Proof.
  intros H. unfold kwatch_rel. steps H; cbn; auto.
  all: try (right; do 3 eexists; repeat split; eauto; fail).
  all: left; repeat split; right; do 2 eexists; (split; [|split; [|reflexivity]]); try congruence.
  all: try (destruct r; discriminate). all: destruct (k_dict s (k_pid s k)); discriminate.
Qed.

Lemma KA_step s s' : KA s -> kstep s s' -> KA s'.
Proof.
  intros [A1 A2 A3 A4] H. pose proof (kstep_proc _ _ H) as P. pose proof (kstep_watch _ _ H) as W. clear H.
  assert (B : forall p n, qholds (k_proc s' p) n -> qholds (k_proc s p) n \/ (k_proc s p = QNone /\ (forall q, ~ qholds (k_proc s q) n) /\ forall q, q <> p -> k_proc s' q = k_proc s q)).
  { intros p n Q. destruct P as [(P & _)|[(q & m & E & N & P & _)|[(q & m & st & E & P & _)|[(q & m & st & E & P & _)|(q & m & st & E & P & _)]]]]; rewrite P in *.
    - auto.
    - unfold fset in Q. destruct (Nat.eqb_spec p q); [|auto]. subst. cbn in Q. subst. right. repeat split; auto. intros. now rewrite fset_other.
    - left. unfold fset in Q. destruct (Nat.eqb_spec p q); [|auto]. subst. rewrite E. exact Q.
    - left. unfold fset in Q. destruct (Nat.eqb_spec p q); [|auto]. subst. rewrite E. exact Q.
    - left. unfold fset in Q. destruct (Nat.eqb_spec p q); [|auto]. subst. destruct Q. }
  assert (C : forall p n, qpid (k_proc s p) = Some n -> qpid (k_proc s' p) = Some n).
  { intros p n Q. destruct P as [(P & _)|[(q & m & E & N & P & _)|[(q & m & st & E & P & _)|[(q & m & st & E & P & _)|(q & m & st & E & P & _)]]]]; rewrite P; auto.
    all: unfold fset; destruct (Nat.eqb_spec p q); auto; subst; rewrite E in Q; first [discriminate | exact Q]. }
  split.
  - intros p q n Q1 Q2. destruct (B p n Q1) as [Q|(E & N & O)], (B q n Q2) as [Q'|(E' & N' & O')]; eauto.
    + exfalso. eapply N'; eauto.
    + exfalso. eapply N; eauto.
    + destruct (Nat.eq_dec p q); auto. exfalso. rewrite (O q) in Q2 by auto. apply (N q Q2).
  - intros j k. destruct W as [(-> & _ & [->|(i & v & I & V & ->)])|(i & p & n & I & Hp & D & -> & _ & -> & _)]; auto.
    + intros J K. apply A2; [unfold fset in J|unfold fset in K]; [destruct (Nat.eqb_spec j i)|destruct (Nat.eqb_spec k i)]; congruence.
    + unfold fset. destruct (Nat.eqb_spec j i), (Nat.eqb_spec k i); subst; auto; intros J K E; exfalso; [apply (D k K)|apply (D j J)]; congruence.
  - intros k. destruct W as [(-> & -> & [->|(i & v & I & V & ->)])|(i & p & n & I & Hp & D & -> & -> & -> & E)]; auto.
    + intros K. apply C, A3. unfold fset in K. destruct (Nat.eqb_spec k i); congruence.
    + unfold fset. destruct (Nat.eqb_spec k i); auto. intros _. rewrite E. now apply holds_pid_of.
  - intros p st. destruct P as [(P & L)|[(q & m & E & N & P & L)|[(q & m & st' & E & P & L)|[(q & m & st' & E & P & L)|(q & m & st' & E & P & L)]]]]; try rewrite P.
    + rewrite L. apply A4.
    + rewrite L, A4. unfold fset. destruct (Nat.eqb_spec p q); [|tauto]. subst. rewrite E. split; intros (n & [X|X]); discriminate.
    + rewrite L, A4. unfold fset. destruct (Nat.eqb_spec p q); [|tauto]. subst. rewrite E. split; intros (n & [X|X]); discriminate.
    + rewrite L. cbn. rewrite A4. unfold fset. destruct (Nat.eqb_spec p q).
      * subst. rewrite E. split; [intros [X|(n & [X|X])]; [injection X as ->; eauto|discriminate..]|intros (n & [X|X]); [injection X as <- <-; auto|discriminate]].
      * split; [intros [X|X]; [injection X as -> ->; congruence|auto]|auto].
    + rewrite L, A4. unfold fset. destruct (Nat.eqb_spec p q); [|tauto]. subst. rewrite E. split; intros (n & [X|X]); try discriminate; injection X as <- <-; eauto.
Qed.
Lemma reach_KA s : kreach s -> KA s.
Proof.
  induction 1 as [s (P & D & N & R & O & T & W & C & L)|s s' _ IH H]; [|eapply KA_step; eauto].
  split; intros; rewrite ?P, ?L in *; cbn in *; try contradiction; try (exfalso; congruence).
  split; [intros []|intros (n & [Q|Q]); discriminate].
Qed.

(** *** Who is responsible for a child *)
Record KB (s : kst) : Prop := {
  b_dict : forall n k, k_dict s n = Some k -> k_pid s k = n /\ (k_w s k = QAdd \/ k_w s k = QOk \/ k_w s k = QPop \/ k_w s k = QRaised);
  b_dict2 : forall n k, k_dict s n = Some k -> ~ busy (k_pc s) k /\ kn_calls k (k_log s) = 0;
  b_live : forall n k, k_dict s n = Some k -> k_w s k <> QRaised -> qholds (k_proc s (k_wproc s k)) n;
  b_add : forall k, k_w s k = QAdd \/ k_w s k = QPop -> k_dict s (k_pid s k) = Some k;
  b_nr : forall k, not_reaped (k_w s k) -> qholds (k_proc s (k_wproc s k)) (k_pid s k);
  b_bc : forall k, unqueued (k_w s k) -> ~ busy (k_pc s) k;
  b_bc2 : forall k, before_call (k_w s k) -> kn_calls k (k_log s) = 0;
  b_call : forall k st, k_w s k = QCall st \/ k_w s k = QLate st -> k_proc s (k_wproc s k) = QReaped (k_pid s k) st /\ kn_calls k (k_log s) = 0;
  b_tcall : forall k st l, k_pc s = TkCall k st l -> k_proc s (k_wproc s k) = QReaped (k_pid s k) st /\ kn_calls k (k_log s) = 0;
  b_hand : forall k, handling (k_pc s) k -> qholds (k_proc s (k_wproc s k)) (k_pid s k) /\ k_proc s (k_wproc s k) <> QRun (k_pid s k) /\ kn_calls k (k_log s) = 0;
  b_log : forall k st, In (QLCall k st) (k_log s) -> k_w s k <> QIdle /\ k_proc s (k_wproc s k) = QReaped (k_pid s k) st;
  b_once : forall k, kn_calls k (k_log s) <= 1;
  b_note : forall p, k_note s p = true -> exists k, k_w s k = QOk /\ k_wproc s k = p /\ k_proc s p = QRun (k_pid s k) /\ k_dict s (k_pid s k) = Some k;
  b_queue : forall p, In p (queue s) -> exists k, k_w s k = QOk /\ k_wproc s k = p /\ qholds (k_proc s p) (k_pid s k) /\ k_proc s p <> QRun (k_pid s k) /\ k_dict s (k_pid s k) = Some k;
  b_nodup : NoDup (queue s) }.

Lemma same_watch s j k n : KA s -> k_w s j <> QIdle -> k_w s k <> QIdle -> qholds (k_proc s (k_wproc s j)) n -> qholds (k_proc s (k_wproc s k)) n -> j = k.
Proof. intros A J K Q1 Q2. apply (ka_dist _ A); auto. eapply (ka_pid _ A); eauto. Qed.
(** A process that a watch is responsible for is the one its pid means. *)
Lemma its_process s k n q : KA s -> qholds (k_proc s (k_wproc s k)) n -> qholds (k_proc s q) n -> q = k_wproc s k.
Proof. intros A Q1 Q2. symmetry. eapply (ka_pid _ A); eauto. Qed.

(** How the process of a watch changes. *)
Lemma proc_keeps s s' p n : kstep s s' -> qholds (k_proc s p) n -> 
  (qholds (k_proc s' p) n /\ (k_proc s p <> QRun n -> k_proc s' p <> QRun n)) \/ (exists st, k_proc s p = QZombie n st /\ k_proc s' p = QReaped n st).
Proof.
  intros H Q. destruct (kstep_proc _ _ H) as [(P & L)|[(q & m & E & N & P & L)|[(q & m & st' & E & P & L)|[(q & m & st' & E & P & L)|(q & m & st' & E & P & L)]]]]; rewrite P; auto.
  all: unfold fset; destruct (Nat.eqb_spec p q); auto; subst; rewrite E in *; cbn in Q; try contradiction; subst.
  - left. cbn. split; [reflexivity|discriminate].
  - left. cbn. split; [reflexivity|discriminate].
  - right. eauto.
Qed.
Lemma reaped_keeps s s' p n st : kstep s s' -> k_proc s p = QReaped n st -> k_proc s' p = QReaped n st.
Proof.
  intros H Q. destruct (kstep_proc _ _ H) as [(P & L)|[(q & m & E & N & P & L)|[(q & m & st' & E & P & L)|[(q & m & st' & E & P & L)|(q & m & st' & E & P & L)]]]]; rewrite P; auto.
  all: unfold fset; destruct (Nat.eqb_spec p q); auto; subst; congruence.
Qed.
(** Who reaps: the watch whose process it was, or nobody watches it. *)
Lemma who_reaps s s' p n st : KA s -> KB s -> kstep s s' -> k_proc s p = QZombie n st -> k_proc s' p = QReaped n st ->
  (forall j, k_w s j <> QIdle -> k_wproc s j = p -> k_w s j = QRaised \/ k_w s j = QRejected)
  \/ (exists k, k_wproc s k = p /\ k_pid s k = n /\
       ((k_w s k = QWait /\ k_w s' k = QCall st) \/ ((exists m, k_w s k = QPoll m) /\ k_w s' k = QLate st)
        \/ (handling (k_pc s) k /\ exists l, k_pc s' = TkCall k st l))).
Proof.
  intros A B H Z R. steps H; waits; cbn in R; try congruence.
  all: try (unfold fset in R; destruct (Nat.eqb_spec p p0); congruence).
  - left. unfold fset in R. destruct (Nat.eqb_spec p p0); [|congruence]. subst. auto.
  - right. exists k. unfold fset in R. destruct (Nat.eqb_spec p q); [|congruence]. subst.
    assert (E : q = k_wproc s k) by (eapply its_process; eauto; [apply (b_nr _ B); rewrite H0; exact Logic.I|rewrite Q; reflexivity]).
    split; [auto|]. assert (n = k_pid s k /\ st = st0) as (-> & ->) by (rewrite Z in Q; split; congruence). split; [reflexivity|]. left. cbn. rewrite fset_same. auto.
  - right. exists k. unfold fset in R. destruct (Nat.eqb_spec p q); [|congruence]. subst.
    assert (E : q = k_wproc s k) by (eapply its_process; eauto; [apply (b_nr _ B); rewrite H0; exact Logic.I|rewrite Q; reflexivity]).
    split; [auto|]. assert (n = k_pid s k /\ st = st0) as (-> & ->) by (rewrite Z in Q; split; congruence). split; [reflexivity|]. right. left. cbn. rewrite fset_same. eauto.
  - right. exists k. unfold fset in R. destruct (Nat.eqb_spec p q); [|congruence]. subst.
    assert (HK : handling (k_pc s) k) by (rewrite H0; reflexivity).
    assert (E : q = k_wproc s k) by (eapply its_process; eauto; [apply (b_hand _ B); auto|rewrite Q; reflexivity]).
    split; [auto|]. assert (n = k_pid s k /\ st = st0) as (-> & ->) by (rewrite Z in Q; split; congruence). split; [reflexivity|]. right. right. cbn. eauto.
  - right. exists k. unfold fset in R. destruct (Nat.eqb_spec p q); [|congruence]. subst.
    assert (HK : handling (k_pc s) k) by (rewrite H0; reflexivity).
    assert (E : q = k_wproc s k) by (eapply its_process; eauto; [apply (b_hand _ B); auto|rewrite Q; reflexivity]).
    split; [auto|]. assert (n = k_pid s k /\ st = st0) as (-> & ->) by (rewrite Z in Q; split; congruence). split; [reflexivity|]. right. right. cbn. eauto.
Qed.
End Inv.
