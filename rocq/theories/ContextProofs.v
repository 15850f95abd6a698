(** Invariant of the context stacks (no statement of a property here). *)
From Verif Require Import Base ContextModel.
From Coq Require Import List ZArith Lia Bool.
Import ListNotations.
Local Open Scope nat_scope.

Lemma upd_length {A} n (v : A) l : List.length (upd n v l) = List.length l.
Proof.
  unfold upd. revert n; induction l as [|a l IH]; intros [|n]; cbn; auto.
Qed.
Lemma upd_same {A} n (v : A) l : n < List.length l -> nth_error (upd n v l) n = Some v.
Proof.
  unfold upd. revert n; induction l as [|a l IH]; intros [|n] H; cbn in *; try lia; auto.
  apply IH; lia.
Qed.
Lemma upd_other {A} n m (v : A) l : n <> m -> nth_error (upd n v l) m = nth_error l m.
Proof.
  unfold upd. revert n m; induction l as [|a l IH]; intros [|n] [|m] H; cbn in *; auto; try lia.
Qed.
Lemma upd_nth_same {A} n (v d : A) l : n < List.length l -> nth n (upd n v l) d = v.
Proof. intros H. apply nth_error_nth. apply upd_same; auto. Qed.
Lemma upd_nth_other {A} n m (v d : A) l : n <> m -> nth m (upd n v l) d = nth m l d.
Proof.
  unfold upd. revert n m; induction l as [|a l IH]; intros [|n] [|m] H; cbn in *; auto; try lia.
Qed.
Lemma ne_app {A} (l : list A) a i x : nth_error (l ++ [a]) i = Some x ->
  nth_error l i = Some x \/ (i = List.length l /\ x = a).
Proof.
  intros H. destruct (Nat.lt_ge_cases i (List.length l)).
  - rewrite nth_error_app1 in H by auto. auto.
  - rewrite nth_error_app2 in H by auto. right. destruct (i - List.length l) as [|k] eqn:E; cbn in H.
    + injection H as <-. split; [lia|auto].
    + destruct k; discriminate.
Qed.
Lemma ckey_eqb_eq a b : ckey_eqb a b = true <-> a = b.
Proof.
  unfold ckey_eqb. destruct a, b; cbn. rewrite andb_true_iff, !Z.eqb_eq. split.
  - intros [-> ->]; auto.
  - intros [= -> ->]; auto.
Qed.
Lemma cd_set_same k v d : cd_set k v d k = v.
Proof. unfold cd_set. replace (ckey_eqb k k) with true; auto. symmetry. apply ckey_eqb_eq; auto. Qed.
Lemma cd_set_other k k' v d : k <> k' -> cd_set k v d k' = d k'.
Proof. unfold cd_set. intros. destruct (ckey_eqb k k') eqn:E; auto. apply ckey_eqb_eq in E. contradiction. Qed.

Lemma py_pop_nil l : py_pop l = None <-> l = [].
Proof. unfold py_pop. destruct l as [|x l] using rev_ind; cbn; [tauto|]. rewrite rev_app_distr; cbn. split; [discriminate|]. intros H. destruct l; discriminate. Qed.
Lemma py_pop_app l m : py_pop (l ++ [m]) = Some (m, l).
Proof. unfold py_pop. rewrite rev_app_distr. cbn. rewrite rev_involutive. auto. Qed.

(** The dictionary a task sees, and the stack found there. *)
Definition var (s : cstate) (c : nat) : option nat :=
  match nth_error (c_vars s) c with Some (Some d) => Some d | _ => None end.
Definition look (s : cstate) (d : nat) (k : ckey) : option (list nat) := nth d (c_dicts s) cd_empty k.
Definition stk (o : option (list nat)) : list nat := match o with Some l => l | None => [] end.
Definition stack_of (s : cstate) (t : ctask) (o : cowner) : list nat :=
  match var s (ct_ctx t) with Some d => stk (look s d (co_addr o, ct_addr t)) | None => [] end.

Definition is_task s i t := nth_error (c_tasks s) i = Some t /\ ct_live t = true.
Definition is_owner s i o := nth_error (c_owners s) i = Some o /\ co_live o = true.

Definition bad_exit (h : list cevent) : Prop := exists t o, In (Left t o Corrupt) h.

Record Inv (s : cstate) (h : list cevent) : Prop := {
  iv_ctx : forall t, In t (c_tasks s) -> ct_ctx t < List.length (c_vars s);
  iv_var : forall c d, var s c = Some d -> d < List.length (c_dicts s);
  iv_open : forall i j, open_blocks h i j <> [] ->
     (exists t, is_task s i t) /\ (exists o, is_owner s j o);
  iv_stack : forall i t j o, is_task s i t -> is_owner s j o ->
     stack_of s t o = rev (open_blocks h i j);
  iv_look : forall d k, stk (look s d k) <> [] ->
     exists i t j o, is_task s i t /\ is_owner s j o /\ k = (co_addr o, ct_addr t) /\ var s (ct_ctx t) = Some d;
  iv_empty : forall d k, look s d k = Some [] -> bad_exit h;
  iv_tu : forall i t i' t', is_task s i t -> is_task s i' t' -> ct_addr t = ct_addr t' -> i = i';
  iv_ou : forall j o j' o', is_owner s j o -> is_owner s j' o' -> co_addr o = co_addr o' -> j = j' }.

Lemma inv_init : Inv (mk_cstate [] [] [] []) [].
Proof.
  split; unfold is_task, is_owner, var, look; cbn; intros.
  - tauto.
  - destruct c; discriminate.
  - congruence.
  - destruct H as [H _]; destruct i; discriminate.
  - destruct d; cbn in H; congruence.
  - destruct d; cbn in H; discriminate.
  - destruct H as [H _]; destruct i; discriminate.
  - destruct H as [H _]; destruct j; discriminate.
Qed.

Lemma inv_context s h v : Inv s h -> (v = None \/ In v (c_vars s)) ->
  Inv (mk_cstate (c_tasks s) (c_owners s) (c_vars s ++ [v]) (c_dicts s)) h.
Proof.
  intros I V.
  set (s' := mk_cstate _ _ _ _).
  assert (VE : forall c, c < List.length (c_vars s) -> var s' c = var s c).
  { intros c Hc. unfold var, s'; cbn. rewrite nth_error_app1 by auto. auto. }
  assert (TE : forall i t, is_task s' i t -> var s' (ct_ctx t) = var s (ct_ctx t)).
  { intros i t [H _]. apply VE. apply (iv_ctx _ _ I). eapply nth_error_In; exact H. }
  destruct I as [A B C D E F G H]. split.
  - intros t T. specialize (A t T). unfold s'; cbn. rewrite app_length; cbn; lia.
  - intros c d. unfold var, s'; cbn. destruct (nth_error (c_vars s ++ [v]) c) as [u|] eqn:U; [|discriminate].
    destruct u as [u|]; [|discriminate]. intros [= ->]. apply ne_app in U. destruct U as [U|[-> U]].
    + apply (B c). unfold var. rewrite U; auto.
    + subst v. destruct V as [V|V]; [discriminate|]. apply In_nth_error in V. destruct V as [c' V]. apply (B c'). unfold var. rewrite V; auto.
  - exact C.
  - intros i t j o T O. rewrite <- (D i t j o T O). unfold stack_of. rewrite (TE i t T). reflexivity.
  - intros d k K. destruct (E d k K) as (i & t & j & o & T & O & K1 & K2). exists i, t, j, o. repeat split; try apply T; try apply O; auto. rewrite (TE i t T); auto.
  - exact F.
  - exact G.
  - exact H.
Qed.

Lemma inv_task s h a c : Inv s h -> c < List.length (c_vars s) ->
  (forall t, In t (c_tasks s) -> ct_live t = true -> ct_addr t <> a) ->
  Inv (mk_cstate (c_tasks s ++ [mk_ctask a c true]) (c_owners s) (c_vars s) (c_dicts s)) h.
Proof.
  intros I V N.
  set (s' := mk_cstate _ _ _ _).
  assert (T1 : forall i t, is_task s i t -> is_task s' i t).
  { intros i t [T L]. split; auto. cbn. rewrite nth_error_app1; auto. apply nth_error_Some. congruence. }
  assert (T2 : forall i t, is_task s' i t -> is_task s i t \/ (i = List.length (c_tasks s) /\ t = mk_ctask a c true)).
  { intros i t [T L]. cbn in T. apply ne_app in T. destruct T as [T|[-> ->]]; auto. left; split; auto. }
  destruct I as [A B C D E F G H]. split.
  - intros t T. cbn in T. apply in_app_or in T. destruct T as [T|[<-|[]]]; auto.
  - exact B.
  - intros i j O. destruct (C i j O) as [[t T] O']. split; eauto.
  - intros i t j o T O. destruct (T2 _ _ T) as [T'|[-> ->]]; [apply (D i t j o T' O)|].
    assert (open_blocks h (List.length (c_tasks s)) j = []) as ->.
    { destruct (open_blocks h (List.length (c_tasks s)) j) eqn:Q; auto. destruct (C (List.length (c_tasks s)) j) as [[t [T' _]] _]; [congruence|].
      exfalso. assert (List.length (c_tasks s) < List.length (c_tasks s)); [|lia]. apply nth_error_Some. congruence. }
    cbn [rev]. unfold stack_of. change (var s') with (var s). change (look s') with (look s). cbn [ct_ctx ct_addr].
    destruct (var s c) as [d|] eqn:Vc; auto.
    destruct (stk (look s d (co_addr o, a))) eqn:Q; auto. exfalso.
    destruct (E d (co_addr o, a)) as (i' & t' & j' & o' & [T3 L3] & O3 & K & _); [congruence|].
    injection K as _ K. apply (N t'); auto. eapply nth_error_In; eauto.
  - intros d k K. destruct (E d k K) as (i & t & j & o & T & O & K1 & K2). exists i, t, j, o; auto.
  - exact F.
  - intros i t i' t' X Y AE. destruct (T2 _ _ X) as [X'|[-> ->]], (T2 _ _ Y) as [Y'|[-> ->]]; eauto.
    + exfalso. destruct X' as [X' L]. apply (N t); auto. eapply nth_error_In; eauto.
    + exfalso. destruct Y' as [Y' L]. apply (N t'); auto. eapply nth_error_In; eauto.
  - exact H.
Qed.

Lemma inv_owner s h a : Inv s h ->
  (forall o, In o (c_owners s) -> co_live o = true -> co_addr o <> a) ->
  Inv (mk_cstate (c_tasks s) (c_owners s ++ [mk_cowner a true]) (c_vars s) (c_dicts s)) h.
Proof.
  intros I N.
  set (s' := mk_cstate _ _ _ _).
  assert (T1 : forall i t, is_owner s i t -> is_owner s' i t).
  { intros i t [T L]. split; auto. cbn. rewrite nth_error_app1; auto. apply nth_error_Some. congruence. }
  assert (T2 : forall i t, is_owner s' i t -> is_owner s i t \/ (i = List.length (c_owners s) /\ t = mk_cowner a true)).
  { intros i t [T L]. cbn in T. apply ne_app in T. destruct T as [T|[-> ->]]; auto. left; split; auto. }
  destruct I as [A B C D E F G H]. split.
  - exact A.
  - exact B.
  - intros i j O. destruct (C i j O) as [T [o O']]. split; eauto.
  - intros i t j o T O. destruct (T2 _ _ O) as [O'|[-> ->]]; [apply (D i t j o T O')|].
    assert (open_blocks h i (List.length (c_owners s)) = []) as ->.
    { destruct (open_blocks h i (List.length (c_owners s))) eqn:Q; auto. destruct (C i (List.length (c_owners s))) as [_ [o [T' _]]]; [congruence|].
      exfalso. assert (List.length (c_owners s) < List.length (c_owners s)); [|lia]. apply nth_error_Some. congruence. }
    cbn [rev]. unfold stack_of. change (var s') with (var s). change (look s') with (look s). cbn [co_addr].
    destruct (var s (ct_ctx t)) as [d|] eqn:Vc; auto.
    destruct (stk (look s d (a, ct_addr t))) eqn:Q; auto. exfalso.
    destruct (E d (a, ct_addr t)) as (i' & t' & j' & o' & T3 & [O3 L3] & K & _); [congruence|].
    injection K as K _. apply (N o'); auto. eapply nth_error_In; eauto.
  - intros d k K. destruct (E d k K) as (i & t & j & o & T & O & K1 & K2). exists i, t, j, o; auto.
  - exact F.
  - exact G.
  - intros i t i' t' X Y AE. destruct (T2 _ _ X) as [X'|[-> ->]], (T2 _ _ Y) as [Y'|[-> ->]]; eauto.
    + exfalso. destruct X' as [X' L]. apply (N t); auto. eapply nth_error_In; eauto.
    + exfalso. destruct Y' as [Y' L]. apply (N t'); auto. eapply nth_error_In; eauto.
Qed.

Lemma upd_cases {A} n (v : A) l i x : nth_error (upd n v l) i = Some x ->
  (i <> n /\ nth_error l i = Some x) \/ (i = n /\ x = v).
Proof.
  intros H. destruct (Nat.eq_dec i n) as [->|N].
  - assert (n < List.length l). { rewrite <- (upd_length n v). apply nth_error_Some. congruence. }
    rewrite upd_same in H by auto. right; split; congruence.
  - rewrite upd_other in H by auto. auto.
Qed.

Lemma inv_task_end s h i t : Inv s h -> nth_error (c_tasks s) i = Some t ->
  (forall o, open_blocks h i o = []) ->
  Inv (mk_cstate (upd i (mk_ctask (ct_addr t) (ct_ctx t) false) (c_tasks s)) (c_owners s) (c_vars s) (c_dicts s)) h.
Proof.
  intros I Ti Oi. set (s' := mk_cstate _ _ _ _).
  assert (T1 : forall i' t', i' <> i -> is_task s i' t' -> is_task s' i' t').
  { intros i' t' Ne [T L]. split; auto. cbn. rewrite upd_other; auto. }
  assert (T2 : forall i' t', is_task s' i' t' -> is_task s i' t' /\ i' <> i).
  { intros i' t' [T L]. cbn in T. apply upd_cases in T. destruct T as [[? T]|[-> ->]]; [|discriminate]. repeat split; auto. }
  destruct I as [A B C D E F G H]. split.
  - intros t' T. cbn in T. apply In_nth_error in T. destruct T as [n T]. apply upd_cases in T.
    destruct T as [[_ T]|[_ ->]]; cbn; [apply A; eapply nth_error_In; eauto|]. apply A; eapply nth_error_In; eauto.
  - exact B.
  - intros i' j O. destruct (Nat.eq_dec i' i) as [->|Ne]; [rewrite Oi in O; congruence|]. destruct (C i' j O) as [[t' T] O']. split; eauto.
  - intros i' t' j o T O. apply T2 in T. destruct T. apply (D i' t' j o); auto.
  - intros d k K. destruct (E d k K) as (i' & t' & j & o & T & O & K1 & K2).
    destruct (Nat.eq_dec i' i) as [->|Ne].
    + exfalso. specialize (D i t' j o T O). rewrite Oi in D. unfold stack_of in D. rewrite K2, <- K1 in D. auto.
    + exists i', t', j, o. auto.
  - exact F.
  - intros i1 t1 i2 t2 X Y. apply T2 in X, Y. apply G; tauto.
  - exact H.
Qed.

Lemma inv_owner_drop s h i t : Inv s h -> nth_error (c_owners s) i = Some t ->
  (forall o, open_blocks h o i = []) ->
  Inv (mk_cstate (c_tasks s) (upd i (mk_cowner (co_addr t) false) (c_owners s)) (c_vars s) (c_dicts s)) h.
Proof.
  intros I Ti Oi. set (s' := mk_cstate _ _ _ _).
  assert (T1 : forall i' t', i' <> i -> is_owner s i' t' -> is_owner s' i' t').
  { intros i' t' Ne [T L]. split; auto. cbn. rewrite upd_other; auto. }
  assert (T2 : forall i' t', is_owner s' i' t' -> is_owner s i' t' /\ i' <> i).
  { intros i' t' [T L]. cbn in T. apply upd_cases in T. destruct T as [[? T]|[-> ->]]; [|discriminate]. repeat split; auto. }
  destruct I as [A B C D E F G H]. split.
  - exact A.
  - exact B.
  - intros i' j O. destruct (Nat.eq_dec j i) as [->|Ne]; [rewrite Oi in O; congruence|]. destruct (C i' j O) as [T [o' O']]. split; eauto.
  - intros i' t' j o T O. apply T2 in O. destruct O. apply (D i' t' j o); auto.
  - intros d k K. destruct (E d k K) as (i' & t' & j & o & T & O & K1 & K2).
    destruct (Nat.eq_dec j i) as [->|Ne].
    + exfalso. specialize (D i' t' i o T O). rewrite Oi in D. unfold stack_of in D. rewrite K2, <- K1 in D. auto.
    + exists i', t', j, o. auto.
  - exact F.
  - exact G.
  - intros i1 t1 i2 t2 X Y. apply T2 in X, Y. apply H; tauto.
Qed.

(** Both operations, seen as: first make sure the task's context has a
    dictionary, then write one key of it. *)
Definition with_dict (s : cstate) (c : nat) : cstate :=
  match var s c with
  | Some _ => s
  | None => mk_cstate (c_tasks s) (c_owners s)
              (upd c (Some (List.length (c_dicts s))) (c_vars s)) (c_dicts s ++ [cd_empty])
  end.

Lemma look_app s ts os vs d k : look (mk_cstate ts os vs (c_dicts s ++ [cd_empty])) d k = look s d k.
Proof.
  unfold look; cbn. destruct (Nat.lt_ge_cases d (List.length (c_dicts s))).
  - rewrite app_nth1; auto.
  - rewrite app_nth2 by auto. rewrite (nth_overflow (c_dicts s)) by auto.
    destruct (d - List.length (c_dicts s)) as [|[|]]; reflexivity.
Qed.

Lemma inv_with_dict s h c : Inv s h -> c < List.length (c_vars s) ->
  Inv (with_dict s c) h /\ exists d, var (with_dict s c) c = Some d.
Proof.
  intros I Hc. unfold with_dict. destruct (var s c) as [d|] eqn:V; [eauto|].
  set (s' := mk_cstate _ _ _ _).
  assert (VS : var s' c = Some (List.length (c_dicts s))).
  { unfold var, s'; cbn. rewrite upd_same; auto. }
  split; [|eauto].
  assert (VO : forall c', c' <> c -> var s' c' = var s c').
  { intros c' Ne. unfold var, s'; cbn. rewrite upd_other; auto. }
  assert (L : forall d k, look s' d k = look s d k). { intros. apply look_app. }
  destruct I as [A B C D E F G H]. split.
  - intros t T. unfold s'; cbn. rewrite upd_length. auto.
  - intros c' d. unfold s' at 2; cbn [c_dicts]. rewrite app_length; cbn. destruct (Nat.eq_dec c' c) as [->|Ne].
    + rewrite VS. intros [= <-]. lia.
    + rewrite VO by auto. intros V'. apply B in V'. lia.
  - exact C.
  - intros i t j o T O. rewrite <- (D i t j o T O). unfold stack_of.
    destruct (Nat.eq_dec (ct_ctx t) c) as [->|Ne].
    + rewrite VS, V, L. unfold look. rewrite nth_overflow; auto.
    + rewrite VO by auto. destruct (var s (ct_ctx t)); auto. rewrite L; auto.
  - intros d k K. rewrite L in K. destruct (E d k K) as (i & t & j & o & T & O & K1 & K2).
    exists i, t, j, o. repeat split; try apply T; try apply O; auto. rewrite VO; auto. congruence.
  - intros d k. rewrite L. apply F.
  - exact G.
  - exact H.
Qed.

Definition put (s : cstate) (d : nat) (k : ckey) (v : option (list nat)) : cstate :=
  mk_cstate (c_tasks s) (c_owners s) (c_vars s) (upd d (cd_set k v (nth d (c_dicts s) cd_empty)) (c_dicts s)).

Lemma look_put_same s d k v : d < List.length (c_dicts s) -> look (put s d k v) d k = v.
Proof. intros. unfold look, put; cbn. rewrite upd_nth_same by auto. apply cd_set_same. Qed.
Lemma look_put_other s d k v d' k' : d < List.length (c_dicts s) -> d' <> d \/ k' <> k ->
  look (put s d k v) d' k' = look s d' k'.
Proof.
  intros Hd N. unfold look, put; cbn. destruct (Nat.eq_dec d' d) as [->|Ne].
  - rewrite upd_nth_same by auto. apply cd_set_other. destruct N; congruence.
  - rewrite upd_nth_other; auto.
Qed.

Lemma inv_put s h h' i t j o d v :
  Inv s h -> is_task s i t -> is_owner s j o -> var s (ct_ctx t) = Some d ->
  (forall i' j', (i' <> i \/ j' <> j) -> open_blocks h' i' j' = open_blocks h i' j') ->
  stk v = rev (open_blocks h' i j) ->
  (v = Some [] -> bad_exit h') -> (bad_exit h -> bad_exit h') ->
  Inv (put s d (co_addr o, ct_addr t) v) h'.
Proof.
  intros I T O V OE SE BE BM.
  set (k := (co_addr o, ct_addr t)). set (s' := put s d k v).
  pose proof (iv_var _ _ I _ _ V) as Ld.
  destruct I as [A B C D E F G H]. split.
  - exact A.
  - intros c d'. unfold s', put; cbn. rewrite upd_length. apply B.
  - intros i' j' Q. destruct (Nat.eq_dec i' i) as [->|Ni], (Nat.eq_dec j' j) as [->|Nj].
    + split; eauto.
    + apply (C i j'). rewrite <- OE; auto.
    + apply (C i' j). rewrite <- OE; auto.
    + apply (C i' j'). rewrite <- OE; auto.
  - intros i' t' j' o' T' O'. unfold stack_of. change (var s' (ct_ctx t')) with (var s (ct_ctx t')).
    change (is_task s i' t') in T'. change (is_owner s j' o') in O'.
    destruct (Nat.eq_dec i' i) as [->|Ni], (Nat.eq_dec j' j) as [->|Nj].
    + assert (t' = t) as -> by (destruct T, T'; congruence).
      assert (o' = o) as -> by (destruct O, O'; congruence).
      rewrite V. unfold s', k. rewrite look_put_same by auto. auto.
    + rewrite OE by auto. rewrite <- (D _ _ _ _ T' O'). unfold stack_of. destruct (var s (ct_ctx t')); auto.
      unfold s'. rewrite look_put_other; auto. right. intros E12; unfold k in E12; injection E12 as E1 E2. apply Nj. eapply H; eauto.
    + rewrite OE by auto. rewrite <- (D _ _ _ _ T' O'). unfold stack_of. destruct (var s (ct_ctx t')); auto.
      unfold s'. rewrite look_put_other; auto. right. intros E12; unfold k in E12; injection E12 as E1 E2. apply Ni. eapply G; eauto.
    + rewrite OE by auto. rewrite <- (D _ _ _ _ T' O'). unfold stack_of. destruct (var s (ct_ctx t')); auto.
      unfold s'. rewrite look_put_other; auto. right. intros E12; unfold k in E12; injection E12 as E1 E2. apply Ni. eapply G; eauto.
  - intros d' k' Q.
    destruct (Nat.eq_dec d' d) as [->|Nd]; [destruct (ckey_eqb k k') eqn:KE|].
    + apply ckey_eqb_eq in KE. subst k'. exists i, t, j, o. auto.
    + unfold s' in Q. rewrite look_put_other in Q by (auto; right; intros ->; rewrite (proj2 (ckey_eqb_eq k k) eq_refl) in KE; discriminate). apply E; auto.
    + unfold s' in Q. rewrite look_put_other in Q; auto.
  - intros d' k' Q.
    destruct (Nat.eq_dec d' d) as [->|Nd]; [destruct (ckey_eqb k k') eqn:KE|].
    + apply ckey_eqb_eq in KE. subst k'. unfold s' in Q. rewrite look_put_same in Q by auto. auto.
    + unfold s' in Q. rewrite look_put_other in Q by (auto; right; intros ->; rewrite (proj2 (ckey_eqb_eq k k) eq_refl) in KE; discriminate). eauto.
    + unfold s' in Q. rewrite look_put_other in Q; eauto.
  - exact G.
  - exact H.
Qed.

Lemma aenter_put s h i t o m : Inv s h -> is_task s i t ->
  exists d, var (with_dict s (ct_ctx t)) (ct_ctx t) = Some d /\
  context_aenter s t o m =
  put (with_dict s (ct_ctx t)) d (co_addr o, ct_addr t)
      (Some (stk (look (with_dict s (ct_ctx t)) d (co_addr o, ct_addr t)) ++ [m])).
Proof.
  intros I [T L]. assert (Hc : ct_ctx t < List.length (c_vars s)). { apply (iv_ctx _ _ I). eapply nth_error_In; eauto. }
  unfold context_aenter, with_dict, var.
  destruct (nth_error (c_vars s) (ct_ctx t)) as [[d|]|] eqn:N.
  - exists d. rewrite N. split; auto.
  - exists (List.length (c_dicts s)). cbn. rewrite upd_same by auto. split; auto.
  - apply nth_error_None in N. lia.
Qed.

Lemma tl_rev_app {A} (l : list A) m : rev (l ++ [m]) = m :: rev l.
Proof. rewrite rev_app_distr. reflexivity. Qed.

Lemma inv_enter s h i t j o m : Inv s h -> is_task s i t -> is_owner s j o ->
  Inv (context_aenter s t o m) (Entered i j m :: h).
Proof.
  intros I T O. destruct (aenter_put s h i t o m I T) as (d & V & ->).
  assert (Hc : ct_ctx t < List.length (c_vars s)). { apply (iv_ctx _ _ I). destruct T as [T _]. eapply nth_error_In; eauto. }
  destruct (inv_with_dict s h (ct_ctx t) I Hc) as [I' _].
  assert (T' : is_task (with_dict s (ct_ctx t)) i t). { unfold with_dict. destruct (var s (ct_ctx t)); auto. }
  assert (O' : is_owner (with_dict s (ct_ctx t)) j o). { unfold with_dict. destruct (var s (ct_ctx t)); auto. }
  pose proof (iv_stack _ _ I' _ _ _ _ T' O') as SE. unfold stack_of in SE. rewrite V in SE.
  apply (inv_put _ h _ i t j o d); auto.
  - intros i' j' N. cbn. destruct (Nat.eqb_spec i i'), (Nat.eqb_spec j j'); cbn; auto. destruct N; congruence.
  - cbn [stk]. rewrite SE. cbn. rewrite !Nat.eqb_refl. cbn. auto.
  - intros Q. exfalso. injection Q as Q. destruct (stk _) in Q; discriminate.
  - intros (a & b & Q). exists a, b. right; auto.
Qed.

Lemma exit_picks s h i t j o : Inv s h -> is_task s i t -> is_owner s j o ->
  fst (context_aexit s t o) = match open_blocks h i j with m :: _ => Got m | [] => Corrupt end
  /\ Inv (snd (context_aexit s t o)) (Left i j (fst (context_aexit s t o)) :: h).
Proof.
  intros I T O.
  assert (Hc : ct_ctx t < List.length (c_vars s)). { apply (iv_ctx _ _ I). destruct T as [T _]. eapply nth_error_In; eauto. }
  pose proof (iv_stack _ _ I _ _ _ _ T O) as SE. unfold stack_of, var in SE.
  assert (OT : forall p i' j', (i' <> i \/ j' <> j) -> open_blocks (Left i j p :: h) i' j' = open_blocks h i' j').
  { intros p i' j' N. cbn. destruct (Nat.eqb_spec i i'), (Nat.eqb_spec j j'); cbn; auto. destruct N; congruence. }
  assert (OS : forall p, open_blocks (Left i j p :: h) i j = tl (open_blocks h i j)).
  { intros p. cbn. rewrite !Nat.eqb_refl. auto. }
  assert (BM : forall p, bad_exit h -> bad_exit (Left i j p :: h)). { intros p (a & b & Q). exists a, b. right; auto. }
  unfold context_aexit. destruct (nth_error (c_vars s) (ct_ctx t)) as [[d|]|] eqn:N.
  - assert (V : var s (ct_ctx t) = Some d). { unfold var. rewrite N; auto. }
    fold (look s d (co_addr o, ct_addr t)). fold (stk (look s d (co_addr o, ct_addr t))).
    rewrite SE. destruct (open_blocks h i j) as [|m l] eqn:Q.
    + cbn. split; auto. apply (inv_put s h _ i t j o d (Some [])); auto.
      * rewrite OS. reflexivity.
      * intros _. exists i, j. left; auto.
    + cbn [rev]. rewrite py_pop_app. destruct (rev l) as [|m' l'] eqn:R; cbn [fst snd]; split; auto.
      * apply (inv_put s h _ i t j o d None); auto. { rewrite OS. cbn [tl]. rewrite R. auto. } discriminate.
      * apply (inv_put s h _ i t j o d (Some (m' :: l'))); auto. { rewrite OS. cbn [tl]. rewrite R. auto. } discriminate.
  - assert (Q : open_blocks h i j = []). { destruct (open_blocks h i j); auto. cbn in SE. destruct (rev l); discriminate. }
    rewrite Q. cbn. split; auto.
    destruct I as [A B C D E F G H]. split; auto.
    + intros i' j' Z. apply C. destruct (Nat.eq_dec i' i) as [->|], (Nat.eq_dec j' j) as [->|]; rewrite ?OS, ?Q in Z; auto; rewrite OT in Z; auto.
    + intros i' t' j' o' T' O'. rewrite (D _ _ _ _ T' O'). destruct (Nat.eq_dec i' i) as [->|], (Nat.eq_dec j' j) as [->|]; rewrite ?OS, ?Q; auto; rewrite OT; auto.
    + intros d k Z. apply BM. eapply F; eauto.
  - apply nth_error_None in N. lia.
Qed.

Lemma cexec_inv s h : cexec s h -> Inv s h.
Proof.
  induction 1.
  - apply inv_init.
  - apply inv_context; auto.
  - apply inv_task; auto.
  - apply inv_task_end; auto.
  - apply inv_owner; auto.
  - apply inv_owner_drop; auto.
  - apply inv_enter; auto; split; auto.
  - eapply exit_picks; eauto; split; auto.
Qed.
