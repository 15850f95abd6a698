(** Specification vocabulary for C42-C44 and C57: which descriptors a command
    has been told to close, and how often a descriptor is closed. *)
From Verif Require Import RunOptionsModel.
Open Scope Z_scope.

Fixpoint occ (fd : Z) (l : list Z) : nat :=
  match l with [] => 0 | z :: l' => ((if (z =? fd)%Z then 1 else 0) + occ fd l')%nat end.
(** How often [fd] is closed, and opened, in a log of system calls. *)
Fixpoint closes (fd : Z) (log : list fdev) : nat :=
  match log with [] => 0 | Closed z :: l => ((if (z =? fd)%Z then 1 else 0) + closes fd l)%nat | Opened _ :: l => closes fd l end.
Fixpoint opens (fd : Z) (log : list fdev) : nat :=
  match log with [] => 0 | Opened z :: l => ((if (z =? fd)%Z then 1 else 0) + opens fd l)%nat | Closed _ :: l => opens fd l end.

(** The descriptors that the options of a command say to close. *)
Definition closed_int (close : bool) (v : value) : list Z := if close then match v with VInt z => [z] | _ => [] end else [].
Definition closable (o : opts) : list Z :=
  closed_int (o_input_close o) (o_input o) ++ closed_int (o_output_close o) (o_output o)
  ++ closed_int (o_error_close o) (o_error o) ++ (if o_pass_fds_close o then o_pass_fds o else []).
(** ... of a command used as a process substitution: its standard input (if
    writable) or output is replaced by a pipe. *)
Definition sub_closable (v : value) : list Z :=
  match v with
  | VCmd _ o => (if o_writable o then closed_int (o_output_close o) (o_output o) else closed_int (o_input_close o) (o_input o))
                ++ closed_int (o_error_close o) (o_error o) ++ (if o_pass_fds_close o then o_pass_fds o else [])
  | _ => []
  end.
Definition is_pipeline (v : value) : bool := match v with VPipe _ => true | _ => false end.
Definition mentions (v : value) (fd : Z) : Prop := exists o, value_options v = Some o /\ In fd (closable o).

(** The system calls of setting up, launching and giving up a command:
    [failed] tells whether the launch fails or is cancelled once everything is
    set up. *)
Definition run_fds (w : world) (c : command) (next : Z) (failed : bool) : list fdev :=
  match enter w c (init_rst next) with
  | (s, Err _) => s_log s
  | (s, Ok _) => s_log (exit_ failed s)
  end.
(** Setting up succeeds. *)
Definition setup_ok (w : world) (c : command) (next : Z) : bool :=
  match snd (enter w c (init_rst next)) with Ok _ => true | Err _ => false end.
