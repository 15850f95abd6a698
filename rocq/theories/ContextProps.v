(** C55: nested and concurrent [async with] blocks on the same Command or
    Pipeline object. *)
From Verif Require Import Base ContextModel ContextProofs.
From Coq Require Import List ZArith Lia Bool.
Import ListNotations.
Local Open Scope nat_scope.

(** * Specification
    Histories have the most recent event first. [about t o e]: the event is an
    enter or an exit by task [t] of a block on owner [o]. *)
Definition about (t o : nat) (e : cevent) : Prop :=
  match e with Entered t' o' _ => t' = t /\ o' = o | Left t' o' _ => t' = t /\ o' = o end.

(** A stretch of history in which every block of [t] on [o] that was entered
    was also left, properly nested. *)
Inductive nested (t o : nat) : list cevent -> Prop :=
| n_nil : nested t o []
| n_other : forall e h, ~ about t o e -> nested t o h -> nested t o (e :: h)
| n_block : forall h1 h2 m p, nested t o h1 -> nested t o h2 ->
    nested t o (Left t o p :: h1 ++ Entered t o m :: h2).

(** The enter that an exit by [t] on [o] happening after [h] belongs to. *)
Definition matching_enter (h : list cevent) (t o m : nat) : Prop :=
  exists h1 h2, h = h1 ++ Entered t o m :: h2 /\ nested t o h1.

Lemma nested_open t o h : nested t o h -> forall r, open_blocks (h ++ r) t o = open_blocks r t o.
Proof.
  induction 1 as [|e h N H IH|h1 h2 m p H1 IH1 H2 IH2]; intros r; auto.
  - destruct e; cbn in *; destruct (Nat.eqb_spec t0 t), (Nat.eqb_spec o0 o); cbn; auto; tauto.
  - cbn. rewrite !Nat.eqb_refl. cbn. rewrite <- app_assoc, IH1. cbn. rewrite !Nat.eqb_refl. cbn. auto.
Qed.

Lemma open_nested t o : forall n h m l, List.length h <= n -> open_blocks h t o = m :: l ->
  exists h1 h2, h = h1 ++ Entered t o m :: h2 /\ nested t o h1 /\ open_blocks h2 t o = l.
Proof.
  induction n as [|n IH]; intros h m l L O.
  { destruct h; [discriminate|cbn in L; lia]. }
  destruct h as [|e h]; [discriminate|]. cbn in L.
  assert (D : about t o e \/ ~ about t o e).
  { destruct e; cbn; destruct (Nat.eq_dec t0 t), (Nat.eq_dec o0 o); tauto. }
  destruct D as [D|D].
  - destruct e as [t' o' m'|t' o' p]; cbn in D; destruct D as [-> ->]; cbn in O; rewrite !Nat.eqb_refl in O; cbn in O.
    + injection O as -> <-. exists [], h. repeat split; auto. constructor.
    + destruct (open_blocks h t o) as [|m0 l0] eqn:Q; cbn in O; [discriminate|]. subst l0.
      destruct (IH h m0 (m :: l)) as (h1 & h2 & -> & N1 & O2); auto; [lia|].
      rewrite app_length in L; cbn in L.
      destruct (IH h2 m l) as (h3 & h4 & -> & N3 & O4); auto; [lia|].
      exists (Left t o p :: h1 ++ Entered t o m0 :: h3), h4. repeat split; auto.
      * cbn. rewrite <- app_assoc. reflexivity.
      * apply n_block; auto.
  - assert (O' : open_blocks h t o = m :: l).
    { destruct e; cbn in *; destruct (Nat.eqb_spec t0 t), (Nat.eqb_spec o0 o); cbn in *; auto; tauto. }
    destruct (IH h m l) as (h1 & h2 & -> & N1 & O2); auto; [lia|].
    exists (e :: h1), h2. repeat split; auto. constructor; auto.
Qed.

Lemma exec_exit s H : cexec s H -> forall after t o p before, H = after ++ Left t o p :: before ->
  p = match open_blocks before t o with m :: _ => Got m | [] => Corrupt end.
Proof.
  induction 1; intros after tt oo p before E; eauto.
  - destruct after; discriminate.
  - destruct after as [|e after]; [discriminate|]. injection E as _ E. eauto.
  - destruct after as [|e after]; [|injection E as _ E; eauto].
    injection E as <- <- <- <-. eapply (exit_picks s h); eauto using cexec_inv; split; auto.
Qed.

(** Leaving a block picks the runner made by the enter the exit belongs to,
    whatever the other tasks (and the other blocks of this task) do; an exit
    without an enter raises RuntimeError. *)
Theorem c55_exit_matches : forall s after t o p before,
  cexec s (after ++ Left t o p :: before) ->
  (forall m, matching_enter before t o m -> p = Got m)
  /\ ((forall m, ~ matching_enter before t o m) -> p = Corrupt).
Proof.
  intros s after t o p before H. pose proof (exec_exit _ _ H _ _ _ _ _ eq_refl) as E. split.
  - intros m (h1 & h2 & -> & N). rewrite (nested_open _ _ _ N) in E. cbn in E. rewrite !Nat.eqb_refl in E. exact E.
  - intros N. destruct (open_blocks before t o) as [|m l] eqn:Q; auto. exfalso.
    destruct (open_nested t o _ _ _ _ (le_n _) Q) as (h1 & h2 & -> & N1 & _). apply (N m). exists h1, h2; auto.
Qed.
Print Assumptions c55_exit_matches.

(** After all blocks were left, no dictionary of any context has an entry. *)
Theorem c55_nothing_left : forall s h,
  cexec s h -> (forall t o, nested t o h) ->
  forall d, In d (c_dicts s) -> forall k, d k = None.
Proof.
  intros s h H N d D k. pose proof (cexec_inv _ _ H) as I.
  apply In_nth_error in D. destruct D as [n D].
  assert (L : look s n k = d k). { unfold look. rewrite (nth_error_nth _ _ _ D). auto. }
  assert (O : forall t o, open_blocks h t o = []).
  { intros t o. pose proof (nested_open _ _ _ (N t o) []) as Q. rewrite app_nil_r in Q. exact Q. }
  destruct (d k) as [st|] eqn:Dk; auto. exfalso. destruct st as [|m st].
  - apply (iv_empty _ _ I) in L. destruct L as (t & o & B). apply in_split in B. destruct B as (a & b & ->).
    pose proof (exec_exit _ _ H _ _ _ _ _ eq_refl) as E.
        assert (G : forall h, nested t o h -> forall a b, h = a ++ Left t o Corrupt :: b ->
                exists m, matching_enter b t o m).
    { clear. induction 1 as [|e h N H IH|h1 h2 m p H1 IH1 H2 IH2]; intros a b E.
      - destruct a; discriminate.
      - destruct a as [|e' a]; cbn in E; injection E as -> E.
        + exfalso. apply N. cbn. auto.
        + eauto.
      - destruct a as [|e' a]; cbn in E; injection E as E1 E.
        + subst. exists m, h1, h2. auto.
        + assert (K : (exists c, h1 = a ++ Left t o Corrupt :: c /\ b = c ++ Entered t o m :: h2)
                   \/ (exists c, h2 = c ++ Left t o Corrupt :: b)).
          { clear - E. revert h1 E. induction a as [|x a IH]; intros h1 E; destruct h1 as [|y h1]; cbn in E; try discriminate.
            - injection E as -> <-. left. exists h1. auto.
            - injection E as _ ->. right. exists a. auto.
            - injection E as -> E. destruct (IH _ E) as [(c & -> & ->)|(c & ->)]; [left; exists c; auto|right; exists c; auto]. }
          destruct K as [(c & -> & ->)|(c & ->)].
          * destruct (IH1 a c eq_refl) as (m' & x & y & -> & Nx). exists m', x, (y ++ Entered t o m :: h2).
            rewrite <- app_assoc. auto.
          * eauto. }
    destruct (G _ (N t o) _ _ eq_refl) as (m & M).
    destruct (c55_exit_matches _ _ _ _ _ _ H) as [C _]. specialize (C m M). discriminate.
  - destruct (iv_look _ _ I n k) as (i & t & j & o & T & O' & -> & V).
    { rewrite L. discriminate. }
    pose proof (iv_stack _ _ I _ _ _ _ T O') as Z. unfold stack_of in Z. rewrite V, L, O in Z. discriminate.
Qed.
Print Assumptions c55_nothing_left.

(** ** Concrete executions *)

(** Two tasks and one command. Task 1 is created by task 0 after task 0 has
    entered (so both share one dictionary); the enters of both are interleaved,
    task 0 nests the same command twice, and task 1 leaves in between. *)
Definition ex_h : list cevent :=
  [ Left 0 0 (Got 7); Left 1 0 (Got 9); Left 0 0 (Got 8);
    Entered 1 0 9; Entered 0 0 8; Entered 0 0 7 ].

Lemma cx_exit' s h s' i t j o p :
  cexec s h -> nth_error (c_tasks s) i = Some t -> ct_live t = true ->
  nth_error (c_owners s) j = Some o -> co_live o = true ->
  s' = snd (context_aexit s t o) -> p = fst (context_aexit s t o) ->
  cexec s' (Left i j p :: h).
Proof. intros; subst; eapply cx_exit; eauto. Qed.

Definition ex_s0 : cstate :=
  mk_cstate [mk_ctask 100%Z 0 true] [mk_cowner 200%Z true] [None] [].
Lemma ex_s0_exec : cexec ex_s0 [].
Proof.
  unfold ex_s0.
  apply (cx_owner (mk_cstate [mk_ctask 100%Z 0 true] [] [None] []) [] 200%Z); [|cbn; tauto].
  apply (cx_task (mk_cstate [] [] [None] []) [] 100%Z 0); [|cbn; lia|cbn; tauto].
  apply (cx_context (mk_cstate [] [] [] []) [] None); auto. apply cx_init.
Qed.
(** After task 0 entered once, it starts task 1 in a copy of its context. *)
Definition ex_s1 : cstate := context_aenter ex_s0 (mk_ctask 100%Z 0 true) (mk_cowner 200%Z true) 7.
Definition ex_s2 : cstate :=
  mk_cstate (c_tasks ex_s1 ++ [mk_ctask 101%Z 1 true]) (c_owners ex_s1) (c_vars ex_s1 ++ [Some 0]) (c_dicts ex_s1).
Lemma ex_s2_exec : cexec ex_s2 [Entered 0 0 7].
Proof.
  unfold ex_s2.
  apply (cx_task (mk_cstate (c_tasks ex_s1) (c_owners ex_s1) (c_vars ex_s1 ++ [Some 0]) (c_dicts ex_s1)) _ 101%Z 1); [|cbn; lia|].
  - apply (cx_context ex_s1); [|right; left; reflexivity].
    eapply (cx_enter ex_s0 [] 0 _ 0 _ 7); try reflexivity. apply ex_s0_exec.
  - cbn. intros t [<-|[]]; cbn; lia.
Qed.

(** The states along the way are computed, so the execution is given forwards. *)
Definition tk0 := mk_ctask 100%Z 0 true.
Definition tk1 := mk_ctask 101%Z 1 true.
Definition ow0 := mk_cowner 200%Z true.
Definition ex_s3 := context_aenter ex_s2 tk0 ow0 8.
Definition ex_s4 := context_aenter ex_s3 tk1 ow0 9.
Definition ex_s5 := snd (context_aexit ex_s4 tk0 ow0).
Definition ex_s6 := snd (context_aexit ex_s5 tk1 ow0).
Definition ex_s7 := snd (context_aexit ex_s6 tk0 ow0).

Example c55_interleaved : cexec ex_s7 ex_h.
Proof.
  unfold ex_h.
  apply (cx_exit' ex_s6 _ _ 0 tk0 0 ow0); try reflexivity.
  apply (cx_exit' ex_s5 _ _ 1 tk1 0 ow0); try reflexivity.
  apply (cx_exit' ex_s4 _ _ 0 tk0 0 ow0); try reflexivity.
  apply (cx_enter ex_s3 _ 1 tk1 0 ow0 9); try reflexivity.
  apply (cx_enter ex_s2 _ 0 tk0 0 ow0 8); try reflexivity.
  apply ex_s2_exec.
Qed.

Example c55_interleaved_match :
  matching_enter [Left 1 0 (Got 9); Left 0 0 (Got 8); Entered 1 0 9; Entered 0 0 8; Entered 0 0 7] 0 0 7.
Proof.
  exists [Left 1 0 (Got 9); Left 0 0 (Got 8); Entered 1 0 9; Entered 0 0 8], []. split; auto.
  apply n_other; [cbn; lia|].
  apply (n_block 0 0 [Entered 1 0 9] [] 8); [|constructor].
  apply n_other; [cbn; lia|constructor].
Qed.

Example c55_interleaved_nested : forall t o, nested t o ex_h.
Proof.
  intros t o. destruct (Nat.eq_dec o 0) as [->|No].
  - destruct (Nat.eq_dec t 0) as [->|N0]; [|destruct (Nat.eq_dec t 1) as [->|N1]].
    + apply (n_block 0 0 [Left 1 0 (Got 9); Left 0 0 (Got 8); Entered 1 0 9; Entered 0 0 8] [] 7); [|constructor].
      apply n_other; [cbn; lia|]. apply (n_block 0 0 [Entered 1 0 9] [] 8); [|constructor].
      apply n_other; [cbn; lia|constructor].
    + apply n_other; [cbn; lia|].
      apply (n_block 1 0 [Left 0 0 (Got 8)] [Entered 0 0 8; Entered 0 0 7] 9).
      * apply n_other; [cbn; lia|constructor].
      * do 2 (apply n_other; [cbn; lia|]). constructor.
    + unfold ex_h. do 6 (apply n_other; [cbn; lia|]). constructor.
  - unfold ex_h. do 6 (apply n_other; [cbn; lia|]). constructor.
Qed.

(** The two tasks really share one dictionary, and while the blocks are open
    it is not empty. *)
Example c55_shared : List.length (c_dicts ex_s4) = 1
  /\ look ex_s4 0 (200, 100)%Z = Some [7; 8] /\ look ex_s4 0 (200, 101)%Z = Some [9].
Proof. vm_compute. auto. Qed.

(** Limits, outside "nested": (1) blocks of one task that are not nested (two
    suspended async generators over the same command, finished in the order
    they were started) get each other's runner. *)
Example c55_not_nested_swaps :
  let s := context_aenter (context_aenter ex_s0 tk0 ow0 1) tk0 ow0 2 in
  fst (context_aexit s tk0 ow0) = Got 2.
Proof. reflexivity. Qed.

(** (2) a block that is left in another task than it was entered in (an async
    generator finalised by the event loop) raises RuntimeError and leaves both
    the open stack and an empty list behind. *)
Example c55_other_task :
  let s := context_aexit (context_aenter ex_s2 tk0 ow0 8) tk1 ow0 in
  fst s = Corrupt /\ look (snd s) 0 (200, 101)%Z = Some [].
Proof. vm_compute. auto. Qed.
