(** C44: the descriptors of the pipes of a pipeline.  The closing calls are those
    of the member commands (PipeFdSpec) and of `close_fds(open_fds)` in
    PipeRunner._start (counted by p_closed in PipeRunnerModel), in any order.
    Every command task is assumed to have started: asyncio starts tasks in the
    order of their creation, before the task that created them can resume. *)
From Coq Require Import Permutation.
From Verif Require Import RunOptionsModel FdSpec FdProofs PipeFdSpec PipeFdProofs PipelineModel PipelineProps FdProps.
From Verif Require Import AsyncProofs PipeRunnerModel PipeRunnerProofs PipeRunnerProofs2 PipeRunnerProps RunTac.
Open Scope Z_scope.

(** All the closing calls for the pipes [fds]. *)
Definition cleanup_calls (fds : list Z) (w : PipeRunnerModel.world) : list fdev :=
  List.concat (repeat (close_fds (map IFd fds) []) (p_closed (w_x w))).
Definition closing_calls (fds : list Z) (out : list command) (ms : list member_run) (w : PipeRunnerModel.world) (log : list fdev) : Prop :=
  Permutation log (members_fds out ms ++ cleanup_calls fds w).
(** The pipeline [cmds] is set up with the pipes r 0, w 0, r 1, w 1, ... *)
Record pipes_made (pipe : nat -> option (Z * Z)) (r w : nat -> Z) (cmds : list command) (ms : list member_run) (fds : list Z) (out : list command) : Prop := {
  pm_two : (2 <= List.length cmds)%nat;
  pm_args : Forall (fun c => c_args c <> []) cmds;
  pm_pipe : forall j, (j < List.length cmds - 1)%nat -> pipe j = Some (r j, w j) /\ 0 <= r j /\ 0 <= w j;
  pm_fds : fds = flat_map (fun j => [r j; w j]) (seq 0 (List.length cmds - 1));
  pm_new : new_descriptors fds cmds;
  pm_ms : List.length ms = List.length cmds;
  pm_next : forall m fd, In m ms -> In fd fds -> fd < m_next m;
  pm_out : setup_pipeline pipe cmds = (fds, Ok out) }.

Definition c44_full_claim := forall pipe r w cmds ms fds out capturing res w' log fd,
  pipes_made pipe r w cmds ms fds out ->
  with_pipe (List.length cmds) (Ok tt) capturing PipeRunnerModel.any_body pw0 res w' ->
  closing_calls fds out ms w' log -> In fd fds -> closes fd log = 1%nat.

Lemma closes_items fd l : 0 <= fd -> forall log, closes fd (close_fds (map IFd l) log) = (closes fd log + occ fd l)%nat.
Proof.
  intros P. unfold close_fds. induction l as [|z l IH]; intros log; cbn; [lia|]. rewrite IH. cbn. destruct (Z.leb_spec 0 z).
  - rewrite closes_app. cbn. lia.
  - destruct (Z.eqb_spec z fd); lia.
Qed.
Lemma closes_repeat fd l k : closes fd (List.concat (repeat l k)) = (k * closes fd l)%nat.
Proof. induction k as [|k IH]; [reflexivity|]. cbn. rewrite closes_app, IH. lia. Qed.
Lemma occ_one fd l : NoDup l -> In fd l -> occ fd l = 1%nat.
Proof.
  intros ND I. pose proof (occ_nodup fd l ND). assert (occ fd l <> 0)%nat; [|lia].
  clear -I. induction l as [|z l IH]; [destruct I|]. cbn. destruct I as [->|I]; [rewrite Z.eqb_refl; lia|]. specialize (IH I). lia.
Qed.
Lemma pm_pos pipe r w cmds ms fds out fd : pipes_made pipe r w cmds ms fds out -> In fd fds -> 0 <= fd.
Proof.
  intros [_ _ PI -> _ _ _ _] I. apply in_flat_map in I as (j & J & I). apply in_seq in J. destruct (PI j ltac:(lia)) as (_ & A & B). destruct I as [<-|[<-|[]]]; assumption.
Qed.
(** Each pipe descriptor is closed once by the commands, and once by every call
    of close_fds(open_fds). *)
Lemma closing_count pipe r w cmds ms fds out w' log fd : pipes_made pipe r w cmds ms fds out -> closing_calls fds out ms w' log -> In fd fds ->
  closes fd log = S (p_closed (w_x w')).
Proof.
  intros PM CC I. pose proof (pm_pos _ _ _ _ _ _ _ fd PM I) as POS. destruct PM as [A1 A2 A3 A4 A5 A6 A7 A8]. rewrite (closes_perm _ _ _ CC), closes_app. subst fds.
  destruct (members_close_pipes pipe r w cmds ms (members_fds out ms) A1 A2 A3 A5 A6 A7) as (out' & S & K).
  rewrite A8 in S. injection S as <-. rewrite (K (Permutation_refl _) fd I). unfold cleanup_calls. rewrite closes_repeat, closes_items by exact POS. cbn [closes].
  rewrite occ_one; [lia|apply A5|exact I].
Qed.

(** The block is entered (always, if nothing is captured): exactly once.
    Missing: `async with` that is cancelled while entering. *)
Theorem c44_closed_once_partial : forall pipe r w cmds ms fds out capturing w0 rb w1 exc res w' log fd,
  pipes_made pipe r w cmds ms fds out ->
  aenter (List.length cmds) (Ok tt) capturing pw0 (Ok tt) w0 -> PipeRunnerModel.any_body w0 rb w1 -> aexit exc w1 res w' ->
  closing_calls fds out ms w' log -> In fd fds -> closes fd log = 1%nat.
Proof.
  intros pipe r w cmds ms fds out cap w0 rb w1 exc res w' log fd PM H1 H2 H3 CC I. rewrite (closing_count _ _ _ _ _ _ _ _ _ _ PM CC I). f_equal.
  pose proof (pm_two _ _ _ _ _ _ _ PM) as N. destruct (aenter_ok _ _ _ N H1) as (h & R & _). destruct (body_run _ _ _ _ H2 _ R) as (h' & R' & _).
  destruct (aexit_spec _ _ _ _ _ _ _ N R' H3) as (h0 & h2 & _ & _ & _ & _ & _ & C & _). exact C.
Qed.
Print Assumptions c44_closed_once_partial.
Theorem c44_not_capturing_partial : forall pipe r w cmds ms fds out o res w' log fd,
  pipes_made pipe r w cmds ms fds out ->
  run_pipeline (List.length cmds) (Ok tt) o pw0 res w' ->
  closing_calls fds out ms w' log -> In fd fds -> closes fd log = 1%nat.
Proof.
  intros pipe r w cmds ms fds out o res w' log fd PM H CC I. pose proof (pm_two _ _ _ _ _ _ _ PM) as N.
  destruct (run_pipeline_parts _ _ _ _ N H) as (w0 & ra & H1 & H3). rewrite (closing_count _ _ _ _ _ _ _ _ _ _ PM CC I). f_equal.
  destruct (aenter_ok _ _ _ N H1) as (h & R & _). destruct (aexit_spec _ _ _ _ _ _ _ N R H3) as (h0 & h2 & _ & _ & _ & _ & _ & C & _). exact C.
Qed.
Print Assumptions c44_not_capturing_partial.
(** Entering fails (it is cancelled): every pipe descriptor is closed twice. *)
Theorem c44_cancelled_entering : forall pipe r w cmds ms fds out capturing e w' log fd,
  pipes_made pipe r w cmds ms fds out ->
  aenter (List.length cmds) (Ok tt) capturing pw0 (Err e) w' ->
  closing_calls fds out ms w' log -> In fd fds -> closes fd log = 2%nat.
Proof.
  intros pipe r w cmds ms fds out cap e w' log fd PM H CC I. rewrite (closing_count _ _ _ _ _ _ _ _ _ _ PM CC I). f_equal.
  destruct (aenter_err _ _ _ _ (pm_two _ _ _ _ _ _ _ PM) H) as (_ & h1 & h0 & h2 & _ & _ & _ & C & _). exact C.
Qed.
Print Assumptions c44_cancelled_entering.

(** A two-command pipeline, pipe 10/11. *)
Definition two_cmds : list command := [([VStr [1]], default_options); ([VStr [2]], default_options)].
Definition two_runs : list member_run := [{| m_world := plain_world true; m_next := 20; m_future := true; m_failed := false |};
  {| m_world := plain_world false; m_next := 20; m_future := true; m_failed := true |}].
Definition two_out : list command := match snd (setup_pipeline (fun _ => Some (10, 11)) two_cmds) with Ok l => l | Err _ => [] end.
Example c44_example : pipes_made (fun _ => Some (10, 11)) (fun _ => 10) (fun _ => 11) two_cmds two_runs [10; 11] two_out
  /\ members_fds two_out two_runs = [Closed 11; Closed 10].
Proof.
  split; [|reflexivity]. split; try reflexivity.
  - repeat constructor; discriminate.
  - intros j L. repeat split; lia.
  - split; [repeat constructor; cbn; intuition lia|]. intros fd c _ C. split.
    + destruct C as [<-|[<-|[]]]; cbn; tauto.
    + intros a A. destruct C as [<-|[<-|[]]]; destruct A as [<-|[]]; intros (o & Q & _); discriminate.
  - intros m fd M F. destruct M as [<-|[<-|[]]], F as [<-|[<-|[]]]; cbn; lia.
Qed.
Lemma ex_cancel_entering : exists w', aenter 2 (Ok tt) true pw0 (Err CancelledError) w'.
Proof.
  eexists. all: go. 1: wait_by [pcancel]. all: go. 1: wait_by [pdone 2 (TFail (ResultError killed)); pdone 3 (TFail (ResultError killed)); pcb 2; pcb 3]. all: go.
Qed.
Theorem c44_refuted : ~ c44_full_claim.
Proof.
  intros C. destruct ex_cancel_entering as (w' & H). destruct c44_example as (PM & _).
  specialize (C _ _ _ _ _ _ _ true _ w' _ 10 PM (b_bind_err _ _ _ _ _ H) (Permutation_refl _) (or_introl eq_refl)).
  rewrite (c44_cancelled_entering _ _ _ _ _ _ _ true _ w' _ 10 PM H (Permutation_refl _) (or_introl eq_refl)) in C. discriminate.
Qed.
Print Assumptions c44_refuted.

(** os.pipe() fails: exactly the pipes made before are closed, once. *)
Theorem c44_pipe_creation_fails : forall pipe r w cmds k fd,
  Forall (fun c => c_args c <> []) cmds -> (k < List.length cmds - 1)%nat ->
  (forall j, (j < k)%nat -> pipe j = Some (r j, w j) /\ 0 <= r j /\ 0 <= w j) -> pipe k = None ->
  let fds := flat_map (fun j => [r j; w j]) (seq 0 k) in
  NoDup fds -> 0 <= fd ->
  setup_pipeline pipe cmds = (fds, Err OSError)
  /\ forall capturing res w', aenter (List.length cmds) (Err OSError) capturing pw0 res w' ->
     closes fd (cleanup_calls fds w') = (if in_dec Z.eq_dec fd fds then 1 else 0)%nat /\ w_tasks w' = [].
Proof.
  intros pipe r w cmds k fd A K PI PN fds ND POS. split.
  - apply c12_pipe_creation_fails; auto. intros j L. destruct (PI j L) as (Q & B & C). split; [exact Q|]. lia.
  - intros cap res w' H. destruct (c70_masked_partial _ _ OSError _ _ eq_refl H) as (_ & T & C). split; [|exact T].
    unfold cleanup_calls. rewrite C. cbn [repeat List.concat]. rewrite app_nil_r, closes_items by exact POS. cbn [closes].
    destruct (in_dec Z.eq_dec fd fds) as [I|I]; [now apply occ_one|now apply occ_In].
Qed.
Print Assumptions c44_pipe_creation_fails.
