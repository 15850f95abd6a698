From Coq Require Import Permutation.
From Verif Require Import RunOptionsModel CommandSpec PipelineSpec PipelineProps FdSpec FdProofs FdProps PipeFdSpec.
Open Scope Z_scope.

Lemma member_count c m fd : 0 <= fd < m_next m -> (forall a, In a (c_args c) -> ~ mentions a fd) ->
  closes fd (member_fds c m) = occ fd (closable (c_opts c)).
Proof.
  intros F NM. unfold member_fds. destruct (run_command_guard c (m_future m)).
  - rewrite closes_cleanup by lia. reflexivity.
  - rewrite c42_close_count; [|exact F|auto].
    assert (Z0 : occ fd (flat_map sub_closable (c_args c)) = 0%nat).
    { clear -NM. induction (c_args c) as [|x l IH]; [reflexivity|]. cbn. rewrite occ_app, sub_closable_nomention by (apply NM; now left). apply IH. intros a I. apply NM. now right. }
    rewrite Z0. destruct (_ && _); lia.
Qed.
Fixpoint total (fd : Z) (l : list command) : nat := match l with [] => 0 | c :: l' => (occ fd (closable (c_opts c)) + total fd l')%nat end.
Lemma members_count fd : 0 <= fd -> forall cmds ms, List.length ms = List.length cmds -> (forall m, In m ms -> fd < m_next m) ->
  (forall c a, In c cmds -> In a (c_args c) -> ~ mentions a fd) -> closes fd (members_fds cmds ms) = total fd cmds.
Proof.
  intros P. induction cmds as [|c cmds IH]; intros [|m ms] L N NM; try discriminate; [reflexivity|]. cbn.
  rewrite closes_app, member_count, IH; auto.
  - intros m' I. apply N. now right.
  - intros c' a I. apply NM. now right.
  - split; [exact P|]. apply N. now left.
  - intros a I. apply (NM c); [now left|exact I].
Qed.
Lemma closes_perm fd l l' : Permutation l l' -> closes fd l = closes fd l'.
Proof. induction 1 as [|x l l' P IH|x y l|l l' l'' P1 IH1 P2 IH2]; [reflexivity| | |congruence]; cbn; [destruct x; lia|destruct x, y; lia]. Qed.

(** How often [fd] is the read end of pipe j-1 (input of command j > 0) or the
    write end of pipe j (output of all but the last). *)
Definition uses (r w : nat -> Z) (n : nat) (fd : Z) (j : nat) : nat :=
  ((if (j =? 0)%nat then 0 else if (r (j - 1)%nat =? fd)%Z then 1 else 0) + (if (S j =? n)%nat then 0 else if (w j =? fd)%Z then 1 else 0))%nat.
Fixpoint sum (f : nat -> nat) (l : list nat) : nat := match l with [] => 0 | j :: l' => (f j + sum f l')%nat end.
Lemma total_nth fd f : forall l k, (forall j c, nth_error l j = Some c -> occ fd (closable (c_opts c)) = f (k + j)%nat) -> total fd l = sum f (seq k (List.length l)).
Proof.
  induction l as [|c l IH]; intros k H; [reflexivity|]. cbn. rewrite (H 0%nat c eq_refl), Nat.add_0_r. f_equal. apply IH.
  intros j c' E. rewrite (H (S j) c' E). f_equal. lia.
Qed.
Definition pipes (r w : nat -> Z) (k m : nat) : list Z := flat_map (fun j => [r j; w j]) (seq k m).
(** Commands k.. of the pipeline; the read end that command k takes was made before. *)
Lemma sum_uses r w fd n : forall m k, (k + S m)%nat = n ->
  sum (uses r w n fd) (seq k (S m)) = ((if (k =? 0)%nat then 0 else if (r (k - 1)%nat =? fd)%Z then 1 else 0) + occ fd (pipes r w k m))%nat.
Proof.
  induction m as [|m IH]; intros k E.
  - cbn. unfold uses. assert (Q : (S k =? n)%nat = true) by (apply Nat.eqb_eq; lia). rewrite Q. lia.
  - change (seq k (S (S m))) with (k :: seq (S k) (S m)). cbn [sum]. rewrite IH by lia. unfold uses at 1.
    assert (Q : (S k =? n)%nat = false) by (apply Nat.eqb_neq; lia). rewrite Q.
    change (pipes r w k (S m)) with ([r k; w k] ++ pipes r w (S k) m). rewrite occ_app. cbn [occ Nat.eqb].
    replace (S k - 1)%nat with k by lia. lia.
Qed.
Lemma member_closable r w n j o o' fd : follows_history (member_updates r w n j) o o' ->
  o_input o' = (if (j =? 0)%nat then o_input o else VInt (r (j - 1)%nat)) ->
  o_input_close o' = (if (j =? 0)%nat then o_input_close o else true) ->
  o_output o' = (if (S j =? n)%nat then o_output o else VInt (w j)) ->
  o_output_close o' = (if (S j =? n)%nat then o_output_close o else true) ->
  ~ In fd (closable o) -> occ fd (closable o') = uses r w n fd j.
Proof.
  intros F I1 I2 O1 O2 NI. pose proof (fh_error _ _ _ F) as E1. pose proof (fh_error_close _ _ _ F) as E2.
  pose proof (fh_pass_fds _ _ _ F) as P1. pose proof (fh_pass_fds_close _ _ _ F) as P2.
  assert (L : o_error o' = o_error o /\ o_error_close o' = o_error_close o /\ o_pass_fds o' = o_pass_fds o /\ o_pass_fds_close o' = o_pass_fds_close o).
  { rewrite E1, E2, P1, P2. unfold member_updates. destruct (j =? 0)%nat, (S j =? n)%nat; repeat split. }
  destruct L as (L1 & L2 & L3 & L4). unfold closable in *. rewrite !in_app_iff in NI. rewrite !occ_app, L1, L2, L3, L4, I1, I2, O1, O2.
  assert (Z1 : occ fd (closed_int (o_error_close o) (o_error o)) = 0%nat) by (apply occ_In; tauto).
  assert (Z2 : occ fd (if o_pass_fds_close o then o_pass_fds o else []) = 0%nat) by (apply occ_In; tauto).
  assert (Z3 : occ fd (closed_int (o_input_close o) (o_input o)) = 0%nat) by (apply occ_In; tauto).
  assert (Z4 : occ fd (closed_int (o_output_close o) (o_output o)) = 0%nat) by (apply occ_In; tauto).
  rewrite Z1, Z2. unfold uses. destruct (j =? 0)%nat, (S j =? n)%nat; rewrite ?Z3, ?Z4; cbn; lia.
Qed.
Lemma members_close_pipes pipe r w cmds ms log :
  (2 <= List.length cmds)%nat -> Forall (fun c => c_args c <> []) cmds ->
  (forall j, (j < List.length cmds - 1)%nat -> pipe j = Some (r j, w j) /\ 0 <= r j /\ 0 <= w j) ->
  new_descriptors (pipes r w 0 (List.length cmds - 1)) cmds ->
  List.length ms = List.length cmds -> (forall m fd, In m ms -> In fd (pipes r w 0 (List.length cmds - 1)) -> fd < m_next m) ->
  exists out, setup_pipeline pipe cmds = (pipes r w 0 (List.length cmds - 1), Ok out)
  /\ (Permutation log (members_fds out ms) -> forall fd, In fd (pipes r w 0 (List.length cmds - 1)) -> closes fd log = 1%nat).
Proof.
  intros N NA PI [ND NW] LM NX. destruct (c12_pipes_connect_neighbours pipe r w cmds) as (out & SP & LO & H); auto.
  { intros ->. cbn in N. lia. }
  exists out. split; [exact SP|]. intros P fd I. rewrite (closes_perm _ _ _ P).
  assert (POS : 0 <= fd).
  { unfold pipes in I. apply in_flat_map in I as (j & J & I). apply in_seq in J. destruct (PI j ltac:(lia)) as (_ & A & B). destruct I as [<-|[<-|[]]]; assumption. }
  assert (NTH : forall j c', nth_error out j = Some c' -> exists c, nth_error cmds j = Some c /\ c_args c' = c_args c /\ occ fd (closable (c_opts c')) = uses r w (List.length cmds) fd j).
  { intros j c' E. destruct (nth_error cmds j) as [c|] eqn:C.
    - exists c. split; [reflexivity|]. destruct (H j c C) as (o' & E' & F & A1 & A2 & A3 & A4 & _). rewrite E' in E. injection E as <-. split; [reflexivity|].
      apply (member_closable r w _ j (c_opts c) o' fd F A1 A2 A3 A4). apply NW; [exact I|]. eapply nth_error_In; eauto.
    - exfalso. apply nth_error_None in C. assert (j < List.length out)%nat by (apply nth_error_Some; congruence). lia. }
  rewrite members_count; [|exact POS|congruence|intros m M; now apply NX|].
  - rewrite (total_nth fd (uses r w (List.length cmds) fd) out 0).
    + rewrite LO. destruct (List.length cmds) as [|n] eqn:LC; [lia|]. rewrite sum_uses by lia. cbn [Nat.eqb]. replace (S n - 1)%nat with n in * by lia.
      pose proof (occ_nodup fd _ ND). assert (occ fd (pipes r w 0 n) <> 0)%nat; [|lia].
      clear -I. induction (pipes r w 0 n) as [|z l IH]; [destruct I|]. cbn. destruct I as [->|I]; [rewrite Z.eqb_refl; lia|]. specialize (IH I). lia.
    + intros j c' E. destruct (NTH j c' E) as (c & _ & _ & Q). exact Q.
  - intros c' a C A. apply In_nth_error in C as (j & C). destruct (NTH j c' C) as (c & E & AE & _). rewrite AE in A. apply (NW fd c I); [eapply nth_error_In; eauto|exact A].
Qed.
