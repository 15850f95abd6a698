(** Model of the context-manager stacks behind [async with cmd] and
    [async with pipeline]: util.py 25-30, 153-190; command.py 715-726;
    pipeline.py 223-235. *)
From Verif Require Import Base.
From Coq Require Import List ZArith Lia Bool.
Import ListNotations.
Local Open Scope nat_scope.

(** What [id(obj)] returns: the address of an object.  Two objects alive at
    the same time have different addresses; an address is used again after its
    object is gone. *)
Definition addr := Z.

(** util.py 25: [_ContextKey], the pair (id(owner), id(current_task())). *)
Definition ckey : Type := (addr * addr)%type.

Definition ckey_eqb (a b : ckey) : bool := ((fst a =? fst b) && (snd a =? snd b))%Z.

(** A [defaultdict(list)]: [None] when the key is absent. A context manager
    (the Runner or PipeRunner made for one [async with]) is a number. *)
Definition cdict : Type := ckey -> option (list nat).

Definition cd_set (k : ckey) (v : option (list nat)) (d : cdict) : cdict :=
  fun k' => if ckey_eqb k k' then v else d k'.

Definition cd_empty : cdict := fun _ => None.

(** A task: its address, the contextvars.Context it runs in, and whether it is
    still alive. *)
Record ctask := mk_ctask { ct_addr : addr; ct_ctx : nat; ct_live : bool }.
(** An owner object (Command or Pipeline). *)
Record cowner := mk_cowner { co_addr : addr; co_live : bool }.

(** [c_vars]: for each Context object the value of the context variable
    [_CONTEXT_STACKS] in it (a reference to a dictionary, or unset);
    [c_dicts]: the dictionary objects. *)
Record cstate := mk_cstate {
  c_tasks  : list ctask;
  c_owners : list cowner;
  c_vars   : list (option nat);
  c_dicts  : list cdict }.

Definition upd {A} (n : nat) (v : A) (l : list A) : list A :=
  firstn n l ++ match skipn n l with [] => [] | _ :: r => v :: r end.

(** util.py 157-166: the part of context_aenter after
    [await ctxt_manager.__aenter__()]; there is no await in it, so it is one
    atomic step.  (The manager's [__aenter__] is modelled in RunnerModel and
    PipeRunnerModel; when it raises, nothing below runs and the [async with]
    statement does not call [__aexit__].) *)
Definition context_aenter (s : cstate) (tk : ctask) (ow : cowner) (m : nat) : cstate :=
  let '(d, vars, dicts) :=
    match nth_error (c_vars s) (ct_ctx tk) with
    | Some (Some d) => (d, c_vars s, c_dicts s)
    | _ => (List.length (c_dicts s),
            upd (ct_ctx tk) (Some (List.length (c_dicts s))) (c_vars s),
            c_dicts s ++ [cd_empty])
    end in
  let key := (co_addr ow, ct_addr tk) in
  let dict := nth d dicts cd_empty in
  let stack := match dict key with Some st => st | None => [] end in
  mk_cstate (c_tasks s) (c_owners s) vars
    (upd d (cd_set key (Some (stack ++ [m])) dict) dicts).

(** What [context_aexit] does before awaiting the manager's [__aexit__]:
    it picks a manager, or raises RuntimeError("... is corrupt"). *)
Inductive picked := Got (m : nat) | Corrupt.

(** [list.pop()]: the last element, and the rest. *)
Definition py_pop (l : list nat) : option (nat * list nat) :=
  match rev l with [] => None | m :: r => Some (m, rev r) end.

(** util.py 176-184: context_aexit up to the [return await]: the reads, the
    pop and the deletion happen without an await, so they are one step.
    [ctxt_stacks[key]] creates an empty list when the key is missing
    (defaultdict), and that list stays when [pop] then raises. *)
Definition context_aexit (s : cstate) (tk : ctask) (ow : cowner) : picked * cstate :=
  match nth_error (c_vars s) (ct_ctx tk) with
  | Some (Some d) =>
      let key := (co_addr ow, ct_addr tk) in
      let dict := nth d (c_dicts s) cd_empty in
      let stack := match dict key with Some st => st | None => [] end in
      match py_pop stack with
      | None => (Corrupt, mk_cstate (c_tasks s) (c_owners s) (c_vars s)
                            (upd d (cd_set key (Some []) dict) (c_dicts s)))
      | Some (m, []) => (Got m, mk_cstate (c_tasks s) (c_owners s) (c_vars s)
                            (upd d (cd_set key None dict) (c_dicts s)))
      | Some (m, st) => (Got m, mk_cstate (c_tasks s) (c_owners s) (c_vars s)
                            (upd d (cd_set key (Some st) dict) (c_dicts s)))
      end
  | _ => (Corrupt, s)
  end.

(** What can be observed: task [t] entered owner [o] with manager [m]; task
    [t] left a block on owner [o] and this manager (or RuntimeError) was
    picked.  Tasks and owners are named by identity, not by address. *)
Inductive cevent := Entered (t o m : nat) | Left (t o : nat) (p : picked).

(** The managers of the blocks of task [t] on owner [o] that are open after a
    history (most recent event first), innermost first. *)
Fixpoint open_blocks (h : list cevent) (t o : nat) : list nat :=
  match h with
  | [] => []
  | Entered t' o' m :: h =>
      if ((t' =? t) && (o' =? o))%nat then m :: open_blocks h t o else open_blocks h t o
  | Left t' o' _ :: h =>
      if ((t' =? t) && (o' =? o))%nat then tl (open_blocks h t o) else open_blocks h t o
  end.

(** All the executions of a program with any number of tasks, owners and
    blocks.  A new task runs in a new Context with a copy of some existing
    Context's value (normally its creator's), in an empty one, or in an existing Context
    ([create_task(context=...)]).  A task ends only after leaving its blocks
    and an owner is dropped only when no block holds it. *)
Inductive cexec : cstate -> list cevent -> Prop :=
| cx_init : cexec (mk_cstate [] [] [] []) []
| cx_context : forall s h v,
    cexec s h -> (v = None \/ In v (c_vars s)) ->
    cexec (mk_cstate (c_tasks s) (c_owners s) (c_vars s ++ [v]) (c_dicts s)) h
| cx_task : forall s h a c,
    cexec s h -> c < List.length (c_vars s) ->
    (forall t, In t (c_tasks s) -> ct_live t = true -> ct_addr t <> a) ->
    cexec (mk_cstate (c_tasks s ++ [mk_ctask a c true]) (c_owners s) (c_vars s) (c_dicts s)) h
| cx_task_end : forall s h i t,
    cexec s h -> nth_error (c_tasks s) i = Some t ->
    (forall o, open_blocks h i o = []) ->
    cexec (mk_cstate (upd i (mk_ctask (ct_addr t) (ct_ctx t) false) (c_tasks s))
                     (c_owners s) (c_vars s) (c_dicts s)) h
| cx_owner : forall s h a,
    cexec s h -> (forall o, In o (c_owners s) -> co_live o = true -> co_addr o <> a) ->
    cexec (mk_cstate (c_tasks s) (c_owners s ++ [mk_cowner a true]) (c_vars s) (c_dicts s)) h
| cx_owner_drop : forall s h i o,
    cexec s h -> nth_error (c_owners s) i = Some o ->
    (forall t, open_blocks h t i = []) ->
    cexec (mk_cstate (c_tasks s) (upd i (mk_cowner (co_addr o) false) (c_owners s))
                     (c_vars s) (c_dicts s)) h
| cx_enter : forall s h i t j o m,
    cexec s h -> nth_error (c_tasks s) i = Some t -> ct_live t = true ->
    nth_error (c_owners s) j = Some o -> co_live o = true ->
    cexec (context_aenter s t o m) (Entered i j m :: h)
| cx_exit : forall s h i t j o,
    cexec s h -> nth_error (c_tasks s) i = Some t -> ct_live t = true ->
    nth_error (c_owners s) j = Some o -> co_live o = true ->
    cexec (snd (context_aexit s t o)) (Left i j (fst (context_aexit s t o)) :: h).
