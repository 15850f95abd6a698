(** Specification vocabulary for C17-C21, C67. *)
From Verif Require Export CopyModel.
Open Scope Z_scope.

(** How a source of data [d] ended: the exception a copy must let out. *)
Definition end_exn (e : ending) : option exn :=
  match e with EndEof => None | EndExc x => Some x | EndCancel => Some CancelledError end.

(** The source is read by [read(8192)] / by [readline()]. *)
Definition chunk_reads := answers (sread CHUNK_SIZE).
Definition line_reads := answers (sreadline LIMIT).

(** Lines of a byte string: cut after each newline; no empty last piece. *)
Fixpoint split_lines (d : bytes) : list bytes :=
  match d with
  | [] => []
  | x :: r =>
      if x =? 10 then [x] :: split_lines r
      else match split_lines r with
           | [] => [[x]]
           | l :: ls => (x :: l) :: ls
           end
  end.
(** What makes a list of pieces "the lines": every piece but the last ends
    with a newline, the last is not empty, and there is no other newline. *)
Inductive line_list : list bytes -> Prop :=
| ll_nil : line_list []
| ll_last l : l <> [] -> ~ In 10 l -> line_list [l]
| ll_cons l ls : ~ In 10 l -> line_list ls -> line_list ((l ++ [10]) :: ls).

(** Length of a line without its newline. *)
Definition line_length (l : bytes) : nat := if ends_nl l then List.length l - 1 else List.length l.
Definition too_long (l : bytes) : bool := (LIMIT <? line_length l)%nat.
Fixpoint take_while {A} (p : A -> bool) (l : list A) : list A :=
  match l with [] => [] | x :: r => if p x then x :: take_while p r else [] end.

Definition prefix {A} (a b : list A) : Prop := exists c, b = a ++ c.

(** Everything written by a log of writer events. *)
Fixpoint written (l : list wevent) : bytes :=
  match l with [] => [] | Write b :: r => b ++ written r | _ :: r => written r end.
Definition closes (l : list wevent) : nat :=
  List.length (filter (fun e => match e with Close => true | _ => false end) l).
(** Nothing is written after the stream was closed. *)
Fixpoint nothing_after_close (l : list wevent) : Prop :=
  match l with [] => True | Close :: r => written r = [] | _ :: r => nothing_after_close r end.
(** The drains never fail with anything but a broken connection. *)
Definition only_broken (dr : drains) : Prop := forall k x, dr k = Some x -> broken x = true.
Definition all_drained (dr : drains) : Prop := forall k, dr k = None.
