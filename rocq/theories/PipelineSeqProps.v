(** Theorems about a Pipeline as a sequence of commands (C137). *)
From Verif Require Import PipelineSeqModel PipelineSpec PipelineProofs CommandProofs.
Open Scope Z_scope.

(** A value that is built with `|` from these commands, grouped in any way. *)
Inductive built : value -> list command -> Prop :=
| built_command c : c_args c <> [] -> built (VCmd (c_args c) (c_opts c)) [c]
| built_or a b v la lb : built a la -> built b lb -> py_or a b = Ok v -> built v (la ++ lb).

Lemma built_commands v cs : built v cs -> commands_of v = Some cs /\ well_formed v.
Proof.
  induction 1 as [[args o] N|a b v la lb _ (A & WA) _ (B & WB) E]; [split; [reflexivity|]; unfold well_formed; cbn; split; [discriminate|repeat constructor; exact N]|].
  rewrite (or_commands _ _ _ _ A B WA WB) in E. injection E as <-. split; [reflexivity|].
  unfold well_formed in WA, WB. rewrite A in WA. rewrite B in WB. now apply well_formed_app.
Qed.
Lemma built_pipeline v cs : built v cs -> (exists c, v = VCmd (c_args c) (c_opts c) /\ cs = [c]) \/ v = VPipe cs.
Proof.
  intros [c N|a b w la lb A B E]; [left; eauto|right]. destruct (built_commands _ _ A) as (CA & WA), (built_commands _ _ B) as (CB & WB).
  rewrite (or_commands _ _ _ _ CA CB WA WB) in E. now injection E as <-.
Qed.

(** ** C137 *)
(** However a pipeline was put together, it is the sequence of its commands, each
    as it was: its length, its elements from the front and from the back, and
    nothing outside. *)
Theorem c137_elements : forall p cs, built (VPipe p) cs ->
  pipe_len p = Z.of_nat (List.length cs)
  /\ (forall i c, nth_error cs i = Some c -> pipe_getitem p (Z.of_nat i) = Ok c /\ pipe_getitem p (Z.of_nat i - pipe_len p) = Ok c)
  /\ (forall key, key < - pipe_len p \/ pipe_len p <= key -> exists e, pipe_getitem p key = Err e).
Proof.
  intros p cs B. destruct (built_pipeline _ _ B) as [(c & Q & _)|[= ->]]; [discriminate|]. clear B. split; [reflexivity|]. unfold pipe_getitem, pipe_len. split.
  - intros i c E. assert (L : (i < List.length cs)%nat) by (apply nth_error_Some; congruence). split.
    + replace (Z.of_nat i <? 0) with false by lia. rewrite Nat2Z.id, E. replace (Z.of_nat i <? 0) with false by lia. reflexivity.
    + replace (Z.of_nat i - Z.of_nat (List.length cs) <? 0) with true by lia.
      replace (Z.of_nat i - Z.of_nat (List.length cs) + Z.of_nat (List.length cs)) with (Z.of_nat i) by lia.
      rewrite Nat2Z.id, E. replace (Z.of_nat i <? 0) with false by lia. reflexivity.
  - intros key [L|L].
    + exists IndexError. replace (key <? 0) with true by lia. replace (key + _ <? 0) with true by lia. reflexivity.
    + exists IndexError. replace (key <? 0) with false by lia. replace (key <? 0) with false by lia.
      rewrite (proj2 (nth_error_None _ _)); [reflexivity|lia].
Qed.
Print Assumptions c137_elements.

(** The elements of a pipeline, put together again with `|`, give the pipeline;
    so two pipelines with the same elements are the same. *)
Theorem c137_rebuilt : forall p c1 c2 r, p = c1 :: c2 :: r -> Forall (fun c => c_args c <> []) p ->
  fold_left (fun v c => bind v (fun v => py_or v (VCmd (c_args c) (c_opts c)))) (c2 :: r) (Ok (VCmd (c_args c1) (c_opts c1))) = Ok (VPipe p)
  /\ built (VPipe p) p.
Proof.
  assert (G : forall l v cs, built v cs -> Forall (fun c => c_args c <> []) l -> l <> [] ->
    fold_left (fun v c => bind v (fun v => py_or v (VCmd (c_args c) (c_opts c)))) l (Ok v) = Ok (VPipe (cs ++ l)) /\ built (VPipe (cs ++ l)) (cs ++ l)).
  { induction l as [|c l IH]; intros v cs B F N; [congruence|]. inversion F as [|? ? AC FL]; subst. cbn [fold_left bind].
    destruct (built_commands _ _ B) as (CV & WV). assert (BC := built_command c AC). destruct (built_commands _ _ BC) as (CC & WC).
    assert (E := or_commands _ _ _ _ CV CC WV WC). rewrite E. assert (B2 := built_or _ _ _ _ _ B BC E).
    destruct l as [|c' l]; [cbn [fold_left]; split; [reflexivity|exact B2]|].
    destruct (IH _ _ B2 FL ltac:(discriminate)) as (X & Y). rewrite <- app_assoc in X, Y. auto. }
  intros p c1 c2 r -> F. inversion F as [|? ? A1 F1]; subst.
  exact (G (c2 :: r) _ _ (built_command c1 A1) F1 ltac:(discriminate)).
Qed.
Print Assumptions c137_rebuilt.

(** The name of a pipeline: the names of its commands, in order, with "|" between
    them. *)
Inductive joined : list text -> text -> Prop :=
| joined_one n : joined [n] n
| joined_more n l t : joined l t -> joined (n :: l) (n ++ 124 :: t).
Theorem c137_name : forall pystr p cs, built (VPipe p) cs ->
  exists names t, Forall2 (fun c n => cmd_name pystr c = Ok n) cs names /\ joined names t /\ pipe_name pystr p = Ok t.
Proof.
  intros pystr p cs B. destruct (built_commands _ _ B) as (E & W). injection E as ->. unfold well_formed in W. cbn [commands_of] in W. destruct W as [N F]. clear B.
  assert (M : exists names, Forall2 (fun c n => cmd_name pystr c = Ok n) cs names /\ map_res (cmd_name pystr) cs = Ok names).
  { clear N. induction F as [|c l AC _ (names & F2 & M)]; [exists []; split; [constructor|reflexivity]|].
    assert (H : exists n, cmd_name pystr c = Ok n).
    { unfold cmd_name. destruct (c_args c) as [|a0 l0]; [congruence|]. destruct (o_alt_name (c_opts c)) as [[|x r]|]; [|eauto|]; cbv zeta; destruct (31 <? _)%nat; eauto. }
    destruct H as (n & H). exists (n :: names). split; [now constructor|]. cbn [map_res]. rewrite H, M. reflexivity. }
  destruct M as (names & F2 & M). exists names, (join_bar names). split; [exact F2|]. split; [|unfold pipe_name; rewrite M; reflexivity].
  assert (NN : names <> []) by (intros ->; inversion F2; congruence). clear - NN.
  induction names as [|n [|n2 l] IH]; [congruence|constructor|]. change (join_bar (n :: n2 :: l)) with (n ++ 124 :: join_bar (n2 :: l)). constructor. apply IH. discriminate.
Qed.
Print Assumptions c137_name.

(** A concrete pipeline of three commands, grouped to the right. *)
Definition ex137 (s : text) : command := ([VStr s], default_options).
Example c137_example : exists p, built (VPipe p) [ex137 [97]; ex137 [98]; ex137 [99]] /\ pipe_getitem p (-1) = Ok (ex137 [99])
  /\ pipe_name (fun _ => []) p = Ok [97; 124; 98; 124; 99].
Proof.
  eexists. split; [|split].
  - change [ex137 [97]; ex137 [98]; ex137 [99]] with ([ex137 [97]] ++ ([ex137 [98]] ++ [ex137 [99]])).
    eapply built_or; [apply built_command; discriminate|eapply built_or; [apply built_command; discriminate|apply built_command; discriminate|reflexivity]|reflexivity].
  - reflexivity.
  - reflexivity.
Qed.
