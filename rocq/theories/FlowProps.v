(** Theorems about the flow of data through the pipes of a command or pipeline
    (C113-C116): for every number of processes, every behaviour of the processes,
    every input, error limit and (legal) pipe capacity, and every interleaving. *)
From Verif Require Export FlowProofs5.
From Coq Require Import Lia.
Open Scope Z_scope.

Section Runs.
Context (n : nat) (stream : bool) (input : list bytes) (olim : option nat) (elim : nat -> option nat) (caps ecaps : nat -> Z).
Notation s0 := (start stream input olim elim caps ecaps).
Lemma ginv_reachable s : n <> O -> big_enough caps -> big_enough ecaps -> reachable n s0 s -> GInv n input olim elim s.
Proof.
  intros NZ B1 B2 R. induction R as [|s s' R IH ST].
  - assert (PK : forall c, PIPE_BUF <= c -> PipeOk (new_pipe c)).
    { intros c H. split; cbn; auto. unfold room. cbn. change (size []) with 0. unfold PIPE_BUF in H. lia. }
    split; cbn; auto using winv_start, rinv_start; try discriminate.
  - destruct ST as [s' ST|i s' LT ST]; [eapply g_loop; eassumption|eapply g_proc_step; eassumption].
Qed.
End Runs.

(** ** C113: no deadlock *)
(** When the event loop has nothing left to do, the processes are not all
    waiting for each other or for shellous: as long as one has not exited, some
    process can go on. *)
Theorem c113_no_deadlock : forall n stream input olim elim caps ecaps s,
  n <> O -> big_enough caps -> big_enough ecaps ->
  reachable n (start stream input olim elim caps ecaps) s -> loop_idle n s ->
  (exists i, (i < n)%nat /\ procs s i <> Exited) ->
  exists i, (i < n)%nat /\ procs s i <> Exited /\ ~ blocked s i.
Proof.
  intros n stream input olim elim caps ecaps s NZ B1 B2 R L (i & LT & A).
  pose proof (ginv_reachable _ _ _ _ _ _ _ s NZ B1 B2 R) as I. pose proof (idle_is_idle _ _ _ _ NZ _ I L) as D.
  assert (NE : forall j, (j < n)%nat -> blocked s j -> forall b, procs s j <> WritingErr b).
  { intros j LJ BL b C. unfold blocked in BL. rewrite C in BL. pose proof (g_proc _ _ _ _ _ I j LJ) as PO. rewrite C in PO. destruct PO as [_ W].
    destruct (d_err _ _ D j LJ) as [X _]. exact (full_data _ _ (g_epk _ _ _ _ _ I j) BL (X W)). }
  (* a writer that waits: so does the process after it *)
  assert (UP : forall k j b, (j + k = n)%nat -> (j < n)%nat -> procs s j = WritingOut b -> exists i, (i < n)%nat /\ procs s i <> Exited /\ ~ blocked s i).
  { induction k as [|k IH]; intros j b E LJ C; [lia|].
    pose proof (g_proc _ _ _ _ _ I j LJ) as PO. rewrite C in PO. destruct PO as [_ W].
    destruct (Z_lt_dec (room (pipes s (S j))) (Z.min PIPE_BUF (size b))) as [F|F].
    2: { exists j. split; [exact LJ|]. split; [congruence|]. unfold blocked. rewrite C. intros [_ X]. exact (F X). }
    destruct (r_open (pipes s (S j))) eqn:RO.
    2: { exists j. split; [exact LJ|]. split; [congruence|]. unfold blocked. rewrite C. intros [X _]. congruence. }
    pose proof (full_data _ _ (g_pk _ _ _ _ _ I (S j)) F) as ND.
    destruct (Nat.eq_dec (S j) n) as [EN|EN].
    { exfalso. destruct (d_out _ _ D) as [X _]. rewrite <- EN in X. exact (ND (X W)). }
    assert (LS : (S j < n)%nat) by lia. pose proof (g_proc _ _ _ _ _ I (S j) LS) as PS.
    destruct (procs s (S j)) as [| |b'|b'|] eqn:CS.
    - exists (S j). split; [exact LS|]. split; [congruence|]. unfold blocked. rewrite CS. auto.
    - exists (S j). split; [exact LS|]. split; [congruence|]. unfold blocked. rewrite CS. intros [X _]. contradiction.
    - apply (IH (S j) b'); [lia|exact LS|exact CS].
    - exists (S j). split; [exact LS|]. split; [congruence|]. intros X. exact (NE _ LS X _ CS).
    - destruct PS as [PS _]. congruence. }
  (* a reader that waits: so does the process before it *)
  assert (DOWN : forall j, (j < n)%nat -> procs s j = Reading -> exists i, (i < n)%nat /\ procs s i <> Exited /\ ~ blocked s i).
  { induction j as [|j IH]; intros LJ C; pose proof (g_proc _ _ _ _ _ I _ LJ) as PO; rewrite C in PO; cbn in PO.
    - exists 0%nat. split; [exact LJ|]. split; [congruence|]. unfold blocked. rewrite C. intros [X Y]. exact (d_in _ _ D PO Y X).
    - assert (LS : (j < n)%nat) by lia. pose proof (g_proc _ _ _ _ _ I j LS) as PS. destruct (w_open (pipes s (S j))) eqn:W.
      2: { exists (S j). split; [exact LJ|]. split; [congruence|]. unfold blocked. rewrite C. intros [_ X]. congruence. }
      destruct (procs s j) as [| |b'|b'|] eqn:CS.
      + exists j. split; [exact LS|]. split; [congruence|]. unfold blocked. rewrite CS. auto.
      + apply IH; assumption || reflexivity.
      + exact (UP (n - j)%nat j b' ltac:(lia) LS CS).
      + exists j. split; [exact LS|]. split; [congruence|]. intros X. exact (NE _ LS X _ CS).
      + destruct PS as (_ & PS & _). congruence. }
  destruct (procs s i) as [| |b|b|] eqn:C.
  - exists i. split; [exact LT|]. split; [congruence|]. unfold blocked. rewrite C. auto.
  - exact (DOWN i LT C).
  - exact (UP (n - i)%nat i b ltac:(lia) LT C).
  - exists i. split; [exact LT|]. split; [congruence|]. intros X. exact (NE _ LT X _ C).
  - congruence.
Qed.
Print Assumptions c113_no_deadlock.
(** In particular no process waits for shellous: not the first for its input,
    not the last with its output, and none with its error messages. *)
Theorem c113_never_waits_for_shellous : forall n stream input olim elim caps ecaps s,
  n <> O -> big_enough caps -> big_enough ecaps ->
  reachable n (start stream input olim elim caps ecaps) s -> loop_idle n s ->
  (procs s 0 = Reading -> ~ blocked s 0)
  /\ (forall b, procs s (n - 1) = WritingOut b -> ~ blocked s (n - 1))
  /\ (forall i b, (i < n)%nat -> procs s i = WritingErr b -> ~ blocked s i).
Proof.
  intros n stream input olim elim caps ecaps s NZ B1 B2 R L.
  pose proof (ginv_reachable _ _ _ _ _ _ _ s NZ B1 B2 R) as I. pose proof (idle_is_idle _ _ _ _ NZ _ I L) as D.
  unfold blocked. split; [|split].
  - intros C. rewrite C. intros [X Y]. pose proof (g_proc _ _ _ _ _ I 0%nat ltac:(lia)) as PO. rewrite C in PO. exact (d_in _ _ D PO Y X).
  - intros b C. rewrite C. intros [X Y]. pose proof (g_proc _ _ _ _ _ I (n - 1)%nat ltac:(lia)) as PO. rewrite C in PO. destruct PO as [_ W].
    replace (S (n - 1)) with n in * by lia. destruct (d_out _ _ D) as [Z _]. exact (full_data _ _ (g_pk _ _ _ _ _ I n) Y (Z W)).
  - intros i b LT C. rewrite C. intros Y. pose proof (g_proc _ _ _ _ _ I i LT) as PO. rewrite C in PO. destruct PO as [_ W].
    destruct (d_err _ _ D i LT) as [Z _]. exact (full_data _ _ (g_epk _ _ _ _ _ I i) Y (Z W)).
Qed.
Print Assumptions c113_never_waits_for_shellous.

(** ** C114: the event loop comes to rest *)
(** From every reachable state, while the processes do nothing, the loop and
    shellous's tasks can take only a limited number of steps, and they get to a
    state in which they have nothing left to do. *)
Theorem c114_comes_to_rest : forall n stream input olim elim caps ecaps s,
  n <> O -> big_enough caps -> big_enough ecaps ->
  reachable n (start stream input olim elim caps ecaps) s ->
  exists N, (forall k s', loop_run n s k s' -> (k <= N)%nat)
    /\ exists k s', loop_run n s k s' /\ loop_idle n s'.
Proof.
  intros n stream input olim elim caps ecaps s NZ B1 B2 R.
  pose proof (ginv_reachable _ _ _ _ _ _ _ s NZ B1 B2 R) as I. exists (m n s). split.
  - intros k s' LR. destruct (m_run _ _ _ _ NZ _ _ _ I LR). lia.
  - destruct (gets_idle _ _ _ _ NZ s I) as (k & s' & A & B & _). eauto.
Qed.
Print Assumptions c114_comes_to_rest.

(** ** C115: the first process reads exactly the input *)
(** What it has read is the beginning of the input; it sees the end of its input
    only after all of it. *)
Theorem c115_input_exact : forall n stream input olim elim caps ecaps s,
  n <> O -> big_enough caps -> big_enough ecaps ->
  reachable n (start stream input olim elim caps ecaps) s ->
  prefix_of (p_out (pipes s 0)) (whole input)
  /\ (saw_eof s 0 = true -> p_out (pipes s 0) = whole input).
Proof.
  intros n stream input olim elim caps ecaps s NZ B1 B2 R.
  pose proof (ginv_reachable _ _ _ _ _ _ _ s NZ B1 B2 R) as I. pose proof (pk_fifo _ (g_pk _ _ _ _ _ I 0%nat)) as F. split.
  - destruct (iw_prefix _ _ _ (g_w _ _ _ _ _ I)) as [r E]. exists (data (pipes s 0) ++ r). rewrite E, F, app_assoc. reflexivity.
  - intros E. rewrite <- (g_saw0 _ _ _ _ _ I E), F. destruct (g_saw _ _ _ _ _ I 0%nat E) as [-> _]. now rewrite app_nil_r.
Qed.
Print Assumptions c115_input_exact.
(** Likewise between the processes of a pipeline. *)
Theorem c115_between_processes : forall n stream input olim elim caps ecaps s i,
  n <> O -> big_enough caps -> big_enough ecaps ->
  reachable n (start stream input olim elim caps ecaps) s ->
  prefix_of (p_out (pipes s i)) (p_in (pipes s i))
  /\ (saw_eof s i = true -> p_out (pipes s i) = p_in (pipes s i) /\ w_open (pipes s i) = false).
Proof.
  intros n stream input olim elim caps ecaps s i NZ B1 B2 R.
  pose proof (ginv_reachable _ _ _ _ _ _ _ s NZ B1 B2 R) as I. pose proof (pk_fifo _ (g_pk _ _ _ _ _ I i)) as F. split.
  - exists (data (pipes s i)). exact F.
  - intros E. destruct (g_saw _ _ _ _ _ I i E) as [D ->]. rewrite D, app_nil_r in F. auto.
Qed.
Print Assumptions c115_between_processes.
(** A process that goes on reading gets it all: if the first process waits for
    input when the loop is idle, there is more, or the end has come. *)
Theorem c115_end_comes : forall n stream input olim elim caps ecaps s,
  n <> O -> big_enough caps -> big_enough ecaps ->
  reachable n (start stream input olim elim caps ecaps) s -> loop_idle n s -> procs s 0 = Reading ->
  data (pipes s 0) <> [] \/ (p_out (pipes s 0) = whole input /\ w_open (pipes s 0) = false).
Proof.
  intros n stream input olim elim caps ecaps s NZ B1 B2 R L C.
  pose proof (ginv_reachable _ _ _ _ _ _ _ s NZ B1 B2 R) as I. pose proof (idle_is_idle _ _ _ _ NZ _ I L) as D.
  pose proof (g_proc _ _ _ _ _ I 0%nat ltac:(lia)) as PO. rewrite C in PO. cbn in PO.
  destruct (data (pipes s 0)) as [|x l] eqn:E; [right|left; congruence].
  assert (W : w_open (pipes s 0) = false). { destruct (w_open (pipes s 0)) eqn:W; [|reflexivity]. destruct (d_in _ _ D PO W E). }
  pose proof (g_w _ _ _ _ _ I) as WI. destruct (iw_shut _ _ _ WI W) as [CL WB]. pose proof (iw_open _ _ _ WI PO CL) as PC.
  destruct (iw_closed _ _ _ WI PC) as [_ SR]. pose proof (iw_input _ _ _ WI PO) as IN. rewrite WB, SR in IN. cbn in IN. rewrite !app_nil_r in IN.
  split; [|exact W]. rewrite IN. pose proof (pk_fifo _ (g_pk _ _ _ _ _ I 0%nat)) as F. rewrite E, app_nil_r in F. congruence.
Qed.
Print Assumptions c115_end_comes.

(** ** C116: the output is collected, all of it or up to the limit *)
Lemma sink_prefix r p : RInv r p -> PipeOk p -> exists b, prefix_of b (p_in p) /\ sink r = cut (limit r) b.
Proof.
  intros I F. destruct (ir_sink _ _ I) as (c & E & S & _). exists c. split; [|exact S]. rewrite (pk_fifo _ F), E. eexists. rewrite <- !app_assoc. reflexivity.
Qed.
Lemma sink_all r p : RInv r p -> PipeOk p -> sbuf r = [] -> queued (rq r) = [] -> data p = [] -> sink r = cut (limit r) (p_in p).
Proof.
  intros I F A B C. destruct (ir_sink _ _ I) as (c & E & S & _). rewrite (pk_fifo _ F), E, S, A, B, C. now rewrite !app_nil_r.
Qed.
Theorem c116_never_wrong : forall n stream input olim elim caps ecaps s,
  n <> O -> big_enough caps -> big_enough ecaps ->
  reachable n (start stream input olim elim caps ecaps) s ->
  (exists b, prefix_of b (p_in (pipes s n)) /\ sink (out s) = cut olim b)
  /\ forall i, (i < n)%nat -> exists b, prefix_of b (p_in (epipes s i)) /\ sink (errs s i) = cut (elim i) b.
Proof.
  intros n stream input olim elim caps ecaps s NZ B1 B2 R.
  pose proof (ginv_reachable _ _ _ _ _ _ _ s NZ B1 B2 R) as I. split.
  - rewrite <- (g_olim _ _ _ _ _ I). exact (sink_prefix _ _ (g_out _ _ _ _ _ I) (g_pk _ _ _ _ _ I n)).
  - intros i _. rewrite <- (g_elim _ _ _ _ _ I i). exact (sink_prefix _ _ (g_err _ _ _ _ _ I i) (g_epk _ _ _ _ _ I i)).
Qed.
Print Assumptions c116_never_wrong.
(** The task that collects an output has ended only when all of it is there;
    and it has ended as soon as the output is closed and the loop is idle. *)
Theorem c116_done_is_all : forall n stream input olim elim caps ecaps s,
  n <> O -> big_enough caps -> big_enough ecaps ->
  reachable n (start stream input olim elim caps ecaps) s ->
  (rstate (out s) = RDone -> sink (out s) = cut olim (p_in (pipes s n)) /\ w_open (pipes s n) = false)
  /\ (forall i, (i < n)%nat -> rstate (errs s i) = RDone -> sink (errs s i) = cut (elim i) (p_in (epipes s i)) /\ w_open (epipes s i) = false)
  /\ (loop_idle n s -> w_open (pipes s n) = false -> rstate (out s) = RDone)
  /\ (loop_idle n s -> forall i, (i < n)%nat -> w_open (epipes s i) = false -> rstate (errs s i) = RDone).
Proof.
  intros n stream input olim elim caps ecaps s NZ B1 B2 R.
  pose proof (ginv_reachable _ _ _ _ _ _ _ s NZ B1 B2 R) as I.
  assert (K : forall r p, RInv r p -> PipeOk p -> rstate r = RDone -> sink r = cut (limit r) (p_in p) /\ w_open p = false).
  { intros r p RI PK E. destruct (ir_done _ _ RI E) as [SE SB]. destruct (rclosing r) eqn:CL.
    - destruct (ir_closing _ _ RI CL) as (DA & W & Q). rewrite SE in Q. split; [|exact W]. apply sink_all; auto. now rewrite Q.
    - destruct (ir_open _ _ RI CL) as [_ X]. congruence. }
  split; [|split; [|split]].
  - rewrite <- (g_olim _ _ _ _ _ I). apply K; [exact (g_out _ _ _ _ _ I)|exact (g_pk _ _ _ _ _ I n)].
  - intros i _. rewrite <- (g_elim _ _ _ _ _ I i). apply K; [exact (g_err _ _ _ _ _ I i)|exact (g_epk _ _ _ _ _ I i)].
  - intros L W. pose proof (idle_is_idle _ _ _ _ NZ _ I L) as D. destruct (d_out _ _ D) as [_ X]. apply X, W.
  - intros L i LT W. pose proof (idle_is_idle _ _ _ _ NZ _ I L) as D. destruct (d_err _ _ D i LT) as [_ X]. apply X, W.
Qed.
Print Assumptions c116_done_is_all.
(** After all processes have exited nothing keeps the tasks waiting. *)
Theorem c116_all_exited : forall n stream input olim elim caps ecaps s,
  n <> O -> big_enough caps -> big_enough ecaps ->
  reachable n (start stream input olim elim caps ecaps) s -> loop_idle n s ->
  (forall i, (i < n)%nat -> procs s i = Exited) ->
  input_done s
  /\ rstate (out s) = RDone /\ sink (out s) = cut olim (p_in (pipes s n))
  /\ forall i, (i < n)%nat -> rstate (errs s i) = RDone /\ sink (errs s i) = cut (elim i) (p_in (epipes s i)).
Proof.
  intros n stream input olim elim caps ecaps s NZ B1 B2 R L X.
  pose proof (ginv_reachable _ _ _ _ _ _ _ s NZ B1 B2 R) as I. pose proof (idle_is_idle _ _ _ _ NZ _ I L) as D.
  destruct (c116_done_is_all _ _ _ _ _ _ _ s NZ B1 B2 R) as (A1 & A2 & A3 & A4). specialize (A3 L). specialize (A4 L).
  assert (P : forall i, (i < n)%nat -> ProcOk Exited (pipes s i) (pipes s (S i)) (epipes s i)).
  { intros i LT. rewrite <- (X i LT). exact (g_proc _ _ _ _ _ I i LT). }
  split; [|split; [|split]].
  - destruct (P 0%nat ltac:(lia)) as (P0 & _). destruct (d_w _ _ D) as [E|[E|[E F]]]; [left; exact E|right; exact E|congruence].
  - destruct (P (n - 1)%nat ltac:(lia)) as (_ & P1 & _). replace (S (n - 1)) with n in P1 by lia. auto.
  - destruct (P (n - 1)%nat ltac:(lia)) as (_ & P1 & _). replace (S (n - 1)) with n in P1 by lia. apply A1. auto.
  - intros i LT. destruct (P i LT) as (_ & _ & P2). specialize (A4 i LT P2). split; [exact A4|]. apply (A2 i LT A4).
Qed.
Print Assumptions c116_all_exited.

(** ** Examples: runs that meet the hypotheses *)
Lemma loop_frame n s s' : n <> O -> l_step n s s' ->
  (forall i, procs s' i = procs s i) /\ (forall i, saw_eof s' i = saw_eof s i) /\ p_in (pipes s' n) = p_in (pipes s n)
  /\ (forall i, p_in (epipes s' i) = p_in (epipes s i)) /\ (forall i, (0 < i < n)%nat -> pipes s' i = pipes s i).
Proof.
  intros NZ ST. destruct ST as [w p ST|r p ST|i r p LT ST]; cbn; repeat split; auto; intros; rewrite ?set_eq, ?set_ne by lia; auto.
  - apply (r_step_pipe _ _ _ _ ST).
  - unfold set. destruct (Nat.eqb_spec i0 i) as [->|]; [apply (r_step_pipe _ _ _ _ ST)|reflexivity].
Qed.
Lemma run_frame n s k s' : n <> O -> loop_run n s k s' ->
  (forall i, procs s' i = procs s i) /\ (forall i, saw_eof s' i = saw_eof s i) /\ p_in (pipes s' n) = p_in (pipes s n)
  /\ (forall i, p_in (epipes s' i) = p_in (epipes s i)) /\ (forall i, (0 < i < n)%nat -> pipes s' i = pipes s i).
Proof.
  intros NZ R. induction R as [|k s1 s2 R IH ST]; [auto 10|]. destruct IH as (A & B & C & D & E). destruct (loop_frame _ _ _ NZ ST) as (A' & B' & C' & D' & E').
  repeat split; intros; rewrite ?A', ?B', ?C', ?D', ?E' by assumption; auto.
Qed.
Lemma run_reachable n s0 s k s' : reachable n s0 s -> loop_run n s k s' -> reachable n s0 s'.
Proof. intros R L. induction L as [|k s1 s2 L IH ST]; [exact R|]. eapply reach_step; [exact IH|apply st_loop, ST]. Qed.
Lemma to_idle n s0 s : n <> O -> (reachable n s0 s -> exists i o e, GInv n i o e s) -> reachable n s0 s -> exists k s', loop_run n s k s' /\ reachable n s0 s' /\ loop_idle n s'.
Proof.
  intros NZ G R. destruct (G R) as (i & o & e & GI). destruct (gets_idle _ _ _ _ NZ s GI) as (k & s' & A & B & _). exists k, s'. eauto using run_reachable.
Qed.

Section Example.
Definition ex_start : st := start true [[7; 8; 9]] None (fun _ => Some 2%nat) (fun _ => 4096) (fun _ => 4096).
Lemma via n s0 s s' : reachable n s0 s -> step n s s' -> reachable n s0 s'.
Proof. apply reach_step. Qed.
Ltac ok := vm_compute; first [reflexivity | discriminate | lia].
Ltac nx R t := let R2 := fresh "R" in let R3 := fresh "R" in epose proof (via _ _ _ _ R ltac:(t)) as R2; clear R;
  match type of R2 with reachable ?n ?s0 ?s => let v := eval vm_compute in s in assert (R3 : reachable n s0 v) by (vm_cast_no_check R2); clear R2; rename R3 into R end.
Ltac pp R i t := nx R ltac:(eapply (st_proc 2 _ i); [lia|t]).
Ltac lp R t := nx R ltac:(apply st_loop, ls_in; t).
(** Two processes: the first reads all its input, writes output and error
    messages, the second copies one byte and exits; shellous writes the input
    and collects everything. *)
Example c113_c116_ex : exists s, reachable 2 ex_start s /\ loop_idle 2 s /\ (forall i, (i < 2)%nat -> procs s i = Exited)
  /\ saw_eof s 0 = true /\ p_in (pipes s 2) = [8] /\ p_in (epipes s 0) = [1; 2; 3].
Proof.
  assert (H : exists s, reachable 2 ex_start s /\ procs s 0 = Exited /\ procs s 1 = Exited /\ saw_eof s 0 = true /\ p_in (pipes s 2) = [8] /\ p_in (epipes s 0) = [1; 2; 3]).
  { pose proof (reach_start 2 ex_start) as R.
    lp R ltac:(apply ws_task, (wt_write _ _ [7; 8; 9] []); [ok|ok|ok|ok|apply tw_all; ok]).
    lp R ltac:(apply ws_task, wt_drain; ok).
    lp R ltac:(apply ws_task, wt_end; [ok|left; ok]).
    lp R ltac:(apply (ws_tlost _ _ false []); ok).
    pp R 0%nat ltac:(apply ps_want_read; ok).
    pp R 0%nat ltac:(apply (ps_read _ _ 3); ok).
    pp R 0%nat ltac:(apply ps_want_read; ok).
    pp R 0%nat ltac:(apply ps_read_eof; ok).
    pp R 0%nat ltac:(apply (ps_want_write _ _ [7; 8]); ok).
    pp R 0%nat ltac:(eapply (ps_write _ _ [7; 8] 2); ok).
    pp R 0%nat ltac:(apply (ps_want_err _ _ [1; 2; 3]); ok).
    pp R 0%nat ltac:(eapply (ps_err _ _ [1; 2; 3] 3); ok).
    pp R 0%nat ltac:(apply ps_exit; ok).
    pp R 1%nat ltac:(apply ps_want_read; ok).
    pp R 1%nat ltac:(apply (ps_read _ _ 2); ok).
    pp R 1%nat ltac:(apply (ps_want_write _ _ [8]); ok).
    pp R 1%nat ltac:(eapply (ps_write _ _ [8] 1); ok).
    pp R 1%nat ltac:(apply ps_exit; ok).
    eexists. split; [exact R|].
    repeat split; vm_compute; reflexivity. }
  destruct H as (s & R & A & B & C & D & E).
  destruct (to_idle 2 ex_start s ltac:(lia)) as (k & s' & LR & R' & L).
  { intros R2. do 3 eexists. eapply (ginv_reachable 2 true); [lia| | |exact R2]; intros ?; vm_compute; discriminate. }
  { exact R. }
  exists s'. destruct (run_frame 2 _ _ _ ltac:(lia) LR) as (A' & B' & C' & D' & _). split; [exact R'|]. split; [exact L|]. split.
  - intros i LT. rewrite A'. destruct i as [|[|i]]; [exact A|exact B|lia].
  - rewrite B', C', D'. auto.
Qed.
(** The first process waits because the pipe to the second is full: the second
    can go on. *)
Example c113_ex_full : exists s, reachable 2 ex_start s /\ loop_idle 2 s /\ blocked s 0 /\ procs s 1 = Busy.
Proof.
  assert (H : exists s, reachable 2 ex_start s /\ procs s 0 = WritingOut [1] /\ procs s 1 = Busy /\ pipes s 1 = put (repeat 0 (Z.to_nat 4096)) (new_pipe 4096)).
  { pose proof (reach_start 2 ex_start) as R.
    pp R 0%nat ltac:(apply (ps_want_write _ _ (repeat 0 (Z.to_nat 4096))); ok).
    pp R 0%nat ltac:(eapply (ps_write _ _ (repeat 0 (Z.to_nat 4096)) (Z.to_nat 4096)); [ok|ok|ok| |ok]; rewrite repeat_length; lia).
    pp R 0%nat ltac:(apply (ps_want_write _ _ [1]); ok).
    eexists. split; [exact R|].
    repeat split; vm_compute; reflexivity. }
  destruct H as (s & R & A & B & C).
  destruct (to_idle 2 ex_start s ltac:(lia)) as (k & s' & LR & R' & L).
  { intros R2. do 3 eexists. eapply (ginv_reachable 2 true); [lia| | |exact R2]; intros ?; vm_compute; discriminate. }
  { exact R. }
  exists s'. destruct (run_frame 2 _ _ _ ltac:(lia) LR) as (A' & _ & _ & _ & E'). split; [exact R'|]. split; [exact L|].
  unfold blocked. rewrite !A', A, B, (E' 1%nat) by lia. rewrite C. repeat split.
Qed.
(** The first process waits for input while the loop is idle. *)
Example c115_ex_reading : exists s, reachable 2 ex_start s /\ loop_idle 2 s /\ procs s 0 = Reading.
Proof.
  assert (H : exists s, reachable 2 ex_start s /\ procs s 0 = Reading).
  { pose proof (reach_start 2 ex_start) as R. pp R 0%nat ltac:(apply ps_want_read; ok). eexists. split; [exact R|reflexivity]. }
  destruct H as (s & R & A).
  destruct (to_idle 2 ex_start s ltac:(lia)) as (k & s' & LR & R' & L).
  { intros R2. do 3 eexists. eapply (ginv_reachable 2 true); [lia| | |exact R2]; intros ?; vm_compute; discriminate. }
  { exact R. }
  exists s'. destruct (run_frame 2 _ _ _ ltac:(lia) LR) as (A' & _). rewrite A'. auto.
Qed.
End Example.
