(** Specification vocabulary for process substitution (C118), written from the
    documentation: `sh("diff", sh("a"), sh("b"))` runs diff with the names of
    two pipes. *)
From Verif Require Import CommandSpec.
Open Scope Z_scope.

(** One substituted argument: a pipe and the command that runs on its far end. *)
Record joint := mk_joint { j_read : Z; j_write : Z; j_sub : value }.
(** The commands that are written to (`.writable`); of a pipeline, the first or
    the last command may be marked. *)
Definition wants_input (v : value) : Prop :=
  match v with
  | VCmd _ o => o_writable o = true
  | VPipe p => exists c, In c p /\ o_writable (snd c) = true /\ ((exists l, p = c :: l) \/ exists l, p = l ++ [c])
  | _ => False
  end.
Definition is_command (v : value) : Prop := match v with VCmd _ _ | VPipe _ => True | _ => False end.

(** [o'] is [o] but for the one redirection [u]. *)
Definition one_update (u : upd) (o o' : opts) : Prop := follows_history [u] o o' /\ o_env o' = o_env o.
(** [v'] is the command or pipeline [v] with standard input (output) redirected. *)
Inductive redirected : upd -> value -> value -> Prop :=
| rd_cmd u a o o' : one_update u o o' -> redirected u (VCmd a o) (VCmd a o')
| rd_first v cl a o o' rest : one_update (UStdin v cl) o o' -> redirected (UStdin v cl) (VPipe ((a, o) :: rest)) (VPipe ((a, o') :: rest))
| rd_last v ap cl a o o' pre : one_update (UStdout v ap cl) o o' -> redirected (UStdout v ap cl) (VPipe (pre ++ [(a, o)])) (VPipe (pre ++ [(a, o')])).

(** The argument [a] has been replaced by the end [fd] of the pipe of [j]: the
    command that started as [a] gets the other end, and closes it. *)
Definition replaced (a : value) (j : joint) (fd : Z) : Prop :=
  (wants_input a /\ fd = j_write j /\ redirected (UStdin (VInt (j_read j)) true) a (j_sub j))
  \/ (~ wants_input a /\ fd = j_read j /\ redirected (UStdout (VInt (j_write j)) false true) a (j_sub j)).

(** Arguments of the command, arguments of the process, joints and passed
    descriptors, from left to right. *)
Inductive substituted (path : Z -> text) : list value -> list value -> list joint -> list Z -> Prop :=
| su_nil : substituted path [] [] [] []
| su_plain a args args' js fds : ~ is_command a -> substituted path args args' js fds -> substituted path (a :: args) (a :: args') js fds
| su_sub a args args' j js fd fds : is_command a -> replaced a j fd -> substituted path args args' js fds ->
    substituted path (a :: args) (VStr (path fd) :: args') (j :: js) (fd :: fds).
(** The pipes do not share an end. *)
Definition ends (js : list joint) : list Z := flat_map (fun j => [j_read j; j_write j]) js.
