(** C129: which children the child watcher of asyncio waits for. *)
From Verif Require Import IgnoreModel.
Open Scope nat_scope.

Definition times (i : nat) (l : list nat) : nat := count_occ Nat.eq_dec l i.
(** Every child is waited for by exactly one party: the watcher has been asked
    once for each child that is not on a BSD pty, and never for one that is. *)
Definition watched_right (who : nat -> launcher) (s : st) : Prop :=
  forall i, times i (registered s) =
            match who i with BsdPty => 0 | _ => times i (spawned s) end
            /\ times i (spawned s) <= 1.

Lemma upd_same {A} (f : nat -> A) i x : upd f i x i = x.
Proof. unfold upd. now rewrite Nat.eqb_refl. Qed.
Lemma upd_other {A} (f : nat -> A) i j x : j <> i -> upd f i x j = f j.
Proof. intros H. unfold upd. now rewrite (proj2 (Nat.eqb_neq j i) H). Qed.
Arguments times : simpl never.
Lemma times_same i l : times i (i :: l) = S (times i l).
Proof. apply count_occ_cons_eq. reflexivity. Qed.
Lemma times_other i j l : j <> i -> times i (j :: l) = times i l.
Proof. intros H. now apply count_occ_cons_neq. Qed.

(** Facts that hold for any number of threads. *)
Record inv (who : nat -> launcher) (s : st) : Prop := mk_inv {
  i_flag : forall i, ignore s i = true -> who i = BsdPty;
  i_set : forall i, who i = BsdPty -> at_ s i = Launching \/ at_ s i = Waiting \/ at_ s i = Leaving -> ignore s i = true;
  i_pty : forall i, match at_ s i with Got _ | Flagged _ | Saved _ _ => who i = BsdPty | _ => True end;
  i_spawn : forall i, times i (spawned s) = 0
                      \/ (times i (spawned s) = 1 /\ match at_ s i with Waiting | Leaving | Over => True | _ => False end);
  i_reg : forall i, who i <> BsdPty -> times i (registered s) = times i (spawned s) }.

Lemma inv_start who : inv who start.
Proof. split; cbn; auto; try discriminate. intros i H [X|[X|X]]; discriminate. Qed.
Ltac dec i j := destruct (Nat.eq_dec i j) as [->|?];
  [rewrite ?upd_same in * | rewrite ?upd_other in * by assumption].
Lemma inv_step who thread s s' : inv who s -> step who thread s s' -> inv who s'.
Proof.
  intros [A B C D E] H. destruct H as [i s' G L | w G].
  2:{ split; cbn; auto. }
  destruct L as [P W|P W|P W|w P Q|w P Q|w P|w n P|P|P|P|P|P]; cbn;
    (split; cbn; intros j; [try specialize (A j)|try specialize (B j)|try specialize (C j)|try specialize (D j)|try specialize (E j)]).
  all: try (destruct (Nat.eq_dec j i) as [->|N]; [rewrite ?upd_same|rewrite ?(upd_other _ i j) by assumption]; auto).
  all: try (pose proof (A i) as Ai); try (pose proof (C i) as Ci); try rewrite P in *; auto.
  all: try (intros ? [?|[?|?]]; discriminate).
  all: try (destruct D as [D|[D []]]; now left).
  - intros X. congruence.
  - unfold is_bsd_pty. destruct (who i); auto; discriminate.
  - intros -> _. reflexivity.
  - rewrite times_same. destruct D as [D|[D []]]; rewrite D. now right.
  - rewrite times_other by auto. auto.
  - intros K. rewrite times_same. destruct (layers s (watcher s)); [rewrite times_same, (E K); reflexivity|].
    destruct (ignore s i) eqn:F; [now elim (K (Ai eq_refl))|]. cbn. rewrite times_same, (E K). reflexivity.
  - intros K. rewrite (times_other j i) by auto. destruct (match layers s (watcher s) with O => true | S _ => negb (ignore s i) end); auto.
    rewrite times_other by auto. auto.
  - unfold reset. destruct (who i); auto; discriminate.
Qed.
Lemma reach_inv who thread s : reachable who thread s -> inv who s.
Proof. induction 1; [apply inv_start|eauto using inv_step]. Qed.

(** In any number of threads: a child that is not on a BSD pty is given to the
    watcher exactly once, whatever else is being launched at the time. *)
Theorem c129_others_watched : forall who thread s i,
  reachable who thread s -> who i <> BsdPty ->
  times i (registered s) = times i (spawned s) /\ times i (spawned s) <= 1.
Proof.
  intros who thread s i H N. apply reach_inv in H. split; [now apply (i_reg _ _ H)|].
  destruct (i_spawn _ _ H i) as [-> | [-> _]]; lia.
Qed.
Print Assumptions c129_others_watched.

(** The context variable is set only inside the block. *)
Theorem c129_flag_confined : forall who thread s i,
  reachable who thread s -> ignore s i = true ->
  who i = BsdPty /\ at_ s i <> Ready /\ at_ s i <> Over.
Proof.
  intros who thread s i H. split; [now apply (i_flag _ _ (reach_inv _ _ _ H))|].
  revert i H0. induction H as [|s s' H IH HS]; [discriminate|]. intros k.
  pose proof (reach_inv _ _ _ H) as I. destruct HS as [i s' G L|w G]; [|cbn; auto].
  destruct L as [P W|P W|P W|w P Q|w P Q|w P|w n P|P|P|P|P|P]; cbn; try (intros F);
    destruct (Nat.eq_dec k i) as [->|N]; rewrite ?upd_same, ?(upd_other _ i k) in * by assumption;
    try (split; discriminate); auto.
  unfold reset in F. destruct (who i) eqn:Wi; try discriminate. pose proof (i_flag _ _ I _ F). congruence.
Qed.
Print Assumptions c129_flag_confined.

(** One thread.  While one launch is busy nothing else moves. *)
Record inv1 (who : nat -> launcher) (s : st) : Prop := mk_inv1 {
  j_one : forall i j, busy (at_ s i) -> busy (at_ s j) -> i = j;
  j_patched : forall w, patched s w = true -> 0 < layers s w
                        \/ exists i, at_ s i = Flagged w \/ exists n, at_ s i = Saved w n;
  j_got : forall i w, at_ s i = Got w -> w = watcher s;
  j_flagged : forall i w, at_ s i = Flagged w -> w = watcher s;
  j_saved : forall i w n, at_ s i = Saved w n -> w = watcher s;
  j_ready : forall i, who i = BsdPty -> at_ s i = Setting \/ at_ s i = Launching -> 0 < layers s (watcher s);
  j_reg : forall i, who i = BsdPty -> times i (registered s) = 0 }.

Lemma inv1_start who : inv1 who start.
Proof. split; cbn; try tauto; try discriminate. intros i H [X|X]; discriminate. Qed.

(** The busy launch [i] moves to a place where it may be busy or not. *)
Lemma one_goto s i p : (forall j, j <> i -> ~ busy (at_ s j)) ->
  forall a b, busy (upd (at_ s) i p a) -> busy (upd (at_ s) i p b) -> a = b.
Proof.
  intros G a b. destruct (Nat.eq_dec a i) as [->|Na], (Nat.eq_dec b i) as [->|Nb];
    rewrite ?upd_same, ?(upd_other _ i a), ?(upd_other _ i b) by assumption; auto; intros X Y;
    exfalso; (eapply G; [|eassumption]); assumption.
Qed.
Lemma quiet s i j : (forall j, j <> i -> ~ busy (at_ s j)) -> j <> i ->
  (forall w, at_ s j <> Got w) /\ (forall w, at_ s j <> Flagged w) /\ (forall w n, at_ s j <> Saved w n)
  /\ at_ s j <> Setting /\ at_ s j <> Launching.
Proof. intros G N. specialize (G j N). repeat split; intros; intros X; rewrite X in G; apply G; exact Logic.I. Qed.

Lemma inv1_move who s s' i p : inv1 who s -> (forall j, j <> i -> ~ busy (at_ s j)) ->
  at_ s' = upd (at_ s) i p -> watcher s' = watcher s ->
  (forall w, patched s' w = true -> 0 < layers s' w \/ p = Flagged w \/ exists n, p = Saved w n) ->
  match p with
  | Got w | Flagged w | Saved w _ => w = watcher s
  | Setting | Launching => who i = BsdPty -> 0 < layers s' (watcher s)
  | _ => True
  end ->
  (forall k, who k = BsdPty -> times k (registered s') = 0) ->
  inv1 who s'.
Proof.
  intros I G Ea Ew Hp Hm Hr. split; rewrite ?Ea, ?Ew.
  - now apply one_goto.
  - intros w K. destruct (Hp w K) as [X|X]; [now left|right]. exists i. now rewrite upd_same.
  - intros k w X. destruct (Nat.eq_dec k i) as [->|N]; [rewrite upd_same in X; now subst p|].
    rewrite upd_other in X by assumption. now elim (proj1 (quiet s i k G N) w).
  - intros k w X. destruct (Nat.eq_dec k i) as [->|N]; [rewrite upd_same in X; now subst p|].
    rewrite upd_other in X by assumption. now elim (proj1 (proj2 (quiet s i k G N)) w).
  - intros k w n X. destruct (Nat.eq_dec k i) as [->|N]; [rewrite upd_same in X; now subst p|].
    rewrite upd_other in X by assumption. now elim (proj1 (proj2 (proj2 (quiet s i k G N))) w n).
  - intros k W X. destruct (Nat.eq_dec k i) as [->|N].
    + rewrite upd_same in X. destruct X; subst p; auto.
    + rewrite upd_other in X by assumption. pose proof (quiet s i k G N) as Y. tauto.
  - assumption.
Qed.
Lemma old_patched who s i : inv1 who s -> (forall j, j <> i -> ~ busy (at_ s j)) ->
  forall w, patched s w = true -> 0 < layers s w \/ at_ s i = Flagged w \/ exists n, at_ s i = Saved w n.
Proof.
  intros I G w K. destruct (j_patched _ _ I w K) as [X|(k & X)]; [now left|right].
  destruct (Nat.eq_dec k i) as [->|N]; [assumption|]. pose proof (quiet s i k G N) as (_ & Y & Z & _).
  destruct X as [X|[n X]]; [now elim (Y w)|now elim (Z w n)].
Qed.

Lemma inv1_step who s s' : inv who s -> inv1 who s -> step who (fun _ => 0) s s' -> inv1 who s'.
Proof.
  intros V I H. destruct H as [i s' G L | w G].
  2:{ destruct I as [A B C D E F R]. specialize (fun j => G j eq_refl). split; cbn; auto.
      - intros i w0 X. exfalso. apply (G i). now rewrite X.
      - intros i w0 X. exfalso. apply (G i). now rewrite X.
      - intros i w0 n X. exfalso. apply (G i). now rewrite X.
      - intros i W [X|X]; exfalso; apply (G i); now rewrite X. }
  assert (G' : forall j, j <> i -> ~ busy (at_ s j)) by (intros j N; apply G; auto). clear G.
  pose proof (old_patched _ _ _ I G') as O. pose proof (j_reg _ _ I) as R.
  assert (O' : (forall w, at_ s i <> Flagged w) -> (forall w n, at_ s i <> Saved w n) ->
               forall p w, patched s w = true -> 0 < layers s w \/ p = Flagged w \/ exists n, p = Saved w n).
  { intros X Y p w K. destruct (O w K) as [Z|[Z|[n Z]]]; [now left|now elim (X w)|now elim (Y w n)]. }
  destruct L as [P W|P W|P W|w P T|w P T|w P|w n P|P|P|P|P|P];
    (eapply inv1_move; [exact I|exact G'|reflexivity|reflexivity|cbn..]); auto;
    try (apply O'; intros; rewrite P; discriminate).
  - congruence.
  - congruence.
  - intros _. destruct (O w T) as [X|[X|[n X]]]; try congruence. now rewrite <- (j_got _ _ I i w P).
  - intros w0 K. destruct (Nat.eq_dec w0 w) as [->|N]; [right; now left|].
    rewrite upd_other in K by assumption. destruct (O w0 K) as [X|[X|[n X]]]; try congruence. now left.
  - now apply (j_got _ _ I i).
  - intros w0 K. destruct (O w0 K) as [X|[X|[n X]]]; [now left| |congruence]. right. right.
    rewrite P in X. injection X as ->. eauto.
  - now apply (j_flagged _ _ I i).
  - intros w0 K. left. destruct (Nat.eq_dec w0 w) as [->|N]; [rewrite upd_same; lia|rewrite upd_other by assumption].
    destruct (O w0 K) as [X|[X|[m X]]]; [assumption|congruence|congruence].
  - intros _. rewrite (j_saved _ _ I i w n P), upd_same. lia.
  - intros W. apply (j_ready _ _ I i W). now left.
  - intros k W. destruct (Nat.eq_dec k i) as [->|N].
    + pose proof (j_ready _ _ I i W (or_intror P)) as X. destruct (layers s (watcher s)); [lia|].
      rewrite (i_set _ _ V i W (or_introl P)). cbn. auto.
    + destruct (match layers s (watcher s) with O => true | S _ => negb (ignore s i) end); auto.
      rewrite times_other by auto. auto.
Qed.

(** One event loop: every child is waited for by exactly one party. *)
Theorem c129_exactly_one_partial : forall who s,
  reachable who (fun _ => 0) s -> watched_right who s.
Proof.
  intros who s H. assert (I : inv who s /\ inv1 who s).
  { induction H as [|s s' H [V I] S]; [split; [apply inv_start|apply inv1_start]|].
    split; [eapply inv_step|eapply inv1_step]; eauto. }
  destruct I as [V I]. intros i. split.
  - destruct (who i) eqn:W; [now apply (j_reg _ _ I)|apply (i_reg _ _ V)|apply (i_reg _ _ V)]; congruence.
  - destruct (i_spawn _ _ V i) as [-> | [-> _]]; lia.
Qed.
Print Assumptions c129_exactly_one_partial.

(** Two threads with an event loop each: the second sees _shellous_patched
    before the first has replaced add_child_handler, and its pty child is given
    to the watcher. *)
Definition c129_full_claim : Prop := forall who thread s, reachable who thread s -> watched_right who s.
Theorem c129_two_threads_refuted : ~ c129_full_claim.
Proof.
  intros C. set (who := fun _ : nat => BsdPty). set (th := fun i : nat => i).
  assert (N : forall s i j, j <> i -> th j = th i -> ~ busy (at_ s j)) by (intros s i j X Y; now elim X).
  assert (Go : forall s s' i, reachable who th s -> lstep who i s s' -> reachable who th s').
  { intros s s' i X Y. eapply r_step; [exact X|]. eapply s_launch; [apply N|exact Y]. }
  pose proof (r_start who th) as R.
  eapply Go in R; [|apply (l_patch who 0); reflexivity].
  eapply Go in R; [|apply (l_flag who 0 _ 0); reflexivity].
  eapply Go in R; [|apply (l_patch who 1); reflexivity].
  eapply Go in R; [|apply (l_already who 1 _ 0); reflexivity].
  eapply Go in R; [|apply (l_set who 1); reflexivity].
  eapply Go in R; [|apply (l_spawn who 1); reflexivity].
  destruct (C _ _ _ R 1) as [X _]. discriminate X.
Qed.
Print Assumptions c129_two_threads_refuted.

(** A pty and a child of the application, interleaved in one loop: the pty is
    left alone, the other one is watched although the pty's block is open. *)
Example ig_interleaved : exists s,
  reachable (fun i => if Nat.eqb i 0 then BsdPty else Application) (fun _ => 0) s
  /\ ignore s 0 = true /\ at_ s 0 = Waiting /\ spawned s = [1; 0] /\ registered s = [1].
Proof.
  set (who := fun i => if Nat.eqb i 0 then BsdPty else Application). set (th := fun _ : nat => 0).
  assert (Go : forall s s' i, reachable who th s -> (forall j, j <> i -> ~ busy (at_ s j)) -> lstep who i s s' -> reachable who th s').
  { intros s s' i X N Y. eapply r_step; [exact X|]. apply (s_launch who th s i s'); [intros j K _; now apply N|exact Y]. }
  pose proof (r_start who th) as R.
  Ltac nobody := let j := fresh in let K := fresh in let X := fresh in intros j K X; destruct j as [|[|j]]; cbn in X; try exact X; now elim K.
  eapply (fun s s' => Go s s' 0) in R; [|nobody|apply (l_patch who 0); reflexivity].
  eapply (fun s s' => Go s s' 0) in R; [|nobody|apply (l_flag who 0 _ 0); reflexivity].
  eapply (fun s s' => Go s s' 0) in R; [|nobody|apply (l_save who 0 _ 0); reflexivity].
  eapply (fun s s' => Go s s' 0) in R; [|nobody|apply (l_wrap who 0 _ 0 0); reflexivity].
  eapply (fun s s' => Go s s' 0) in R; [|nobody|apply (l_set who 0); reflexivity].
  eapply (fun s s' => Go s s' 0) in R; [|nobody|apply (l_spawn who 0); reflexivity].
  eapply (fun s s' => Go s s' 1) in R; [|nobody|apply (l_app who 1); reflexivity].
  eapply (fun s s' => Go s s' 1) in R; [|nobody|apply (l_spawn who 1); reflexivity].
  eexists. split; [exact R|]. repeat split.
Qed.
