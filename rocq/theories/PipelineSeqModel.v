(** Model of a Pipeline as a sequence of commands (pipeline.py 55-58, 152-158).

    Simplification: the IndexError of a tuple is [OtherError 1]. *)
From Verif Require Export PipelineModel.
Open Scope Z_scope.

(** pipeline.py 152-154: __len__ *)
Definition pipe_len (p : pipeline) : Z := Z.of_nat (List.length p).

Definition IndexError : exn := OtherError 1.
(** pipeline.py 156-158: __getitem__, with Python's negative indexes. *)
Definition pipe_getitem (p : pipeline) (key : Z) : res command :=
  let i := if key <? 0 then key + pipe_len p else key in
  if i <? 0 then Err IndexError
  else match nth_error p (Z.to_nat i) with Some c => Ok c | None => Err IndexError end.

(** "|".join(names) *)
Fixpoint join_bar (names : list text) : text :=
  match names with
  | [] => []
  | [n] => n
  | n :: r => n ++ 124 :: join_bar r
  end.
(** [f(x) for x in l] *)
Fixpoint map_res {A B} (f : A -> res B) (l : list A) : res (list B) :=
  match l with
  | [] => Ok []
  | x :: r => bind (f x) (fun y => bind (map_res f r) (fun ys => Ok (y :: ys)))
  end.
(** pipeline.py 55-58: name *)
Definition pipe_name (pystr : value -> text) (p : pipeline) : res text :=
  bind (map_res (cmd_name pystr) p) (fun l => Ok (join_bar l)).
