(** Model of watcher.py 57-152 (DefaultChildWatcher): the lazily created
    strategy and the lock around it.

    Any number of threads call [add_child_handler] and [close]; one step is one
    atomic operation (reading or writing the attribute [_strategy], acquiring or
    releasing the lock, constructing a strategy, calling one of its methods);
    all interleavings are executions.  A strategy is an object named by a number
    that is never used again.

    Simplifications: which of the three strategy classes is used does not matter
    here; a constructor either makes a strategy or raises (epoll_create, pipe
    and thread creation may fail); [watch_pid] and [close] of a strategy are one
    event each (they are modelled in EPollModel and ThreadWatchModel). *)
From Verif Require Import Base EPollModel.
From Coq Require Import List ZArith Lia Bool.
Import ListNotations.
Local Open Scope nat_scope.

(** A call of [add_child_handler] (watcher.py 74-93, 140-152). *)
Inductive apc :=
| ANone                 (* not called yet *)
| ATest                 (* 88: before reading self._strategy *)
| ALock                 (* 89: before acquiring the lock *)
| ARetest               (* 142: with the lock, before reading self._strategy *)
| ACreate               (* 152: with the lock, before strategy() *)
| AStore (i : nat)      (* 152: with the lock, before the assignment *)
| AUnlock               (* 89: before releasing the lock *)
| AUnlockErr            (* 89: before releasing the lock, an exception is on its way *)
| AAssert               (* 91: before the assert reads self._strategy *)
| AUse                  (* 93: before reading self._strategy *)
| AWatch (i : nat)      (* 93: before calling watch_pid *)
| AOk                   (* watch_pid was called *)
| AFailed.              (* raised *)

(** A call of [close] (watcher.py 113-123). *)
Inductive cpc :=
| CNone                        (* not called yet *)
| CLock                        (* 118 *)
| CTake                        (* 119: with the lock, before reading self._strategy *)
| CClear (o : option nat)      (* 120: with the lock, before the assignment *)
| CUnlock (o : option nat)     (* before releasing the lock *)
| CCall (o : option nat)       (* 122 *)
| CEnd.

Inductive dev :=
| NCreated (i : nat)           (* strategy i was created *)
| NWatch (k i : nat)           (* add_child_handler call k watches with strategy i *)
| NClosing (c : nat)           (* close call c started *)
| NStratClose (i : nat)        (* close() of strategy i was called *)
| NCtorError (k : nat)         (* call k: the constructor raised *)
| NNoStrategy (k : nat).       (* call k: AssertionError or AttributeError, self._strategy is None *)

Inductive holder := HAdd (k : nat) | HClose (c : nat).

Record dst := mk_dst {
  d_strat : option nat;        (* self._strategy *)
  d_lock : option holder;      (* self._lock *)
  d_next : nat;                (* strategies with smaller numbers were created *)
  d_a : nat -> apc;
  d_c : nat -> cpc;
  d_log : list dev }.

Definition d_set_strat o s := mk_dst o (d_lock s) (d_next s) (d_a s) (d_c s) (d_log s).
Definition d_set_lock l s := mk_dst (d_strat s) l (d_next s) (d_a s) (d_c s) (d_log s).
Definition d_set_a k v s := mk_dst (d_strat s) (d_lock s) (d_next s) (fset (d_a s) k v) (d_c s) (d_log s).
Definition d_set_c k v s := mk_dst (d_strat s) (d_lock s) (d_next s) (d_a s) (fset (d_c s) k v) (d_log s).
Definition d_add e s := mk_dst (d_strat s) (d_lock s) (d_next s) (d_a s) (d_c s) (e :: d_log s).
Definition d_incr s := mk_dst (d_strat s) (d_lock s) (S (d_next s)) (d_a s) (d_c s) (d_log s).

Inductive dstep : dst -> dst -> Prop :=
(** 74: a call of add_child_handler starts. *)
| d_call : forall s k, d_a s k = ANone -> dstep s (d_set_a k ATest s)
(** 88: if not self._strategy *)
| d_test : forall s k, d_a s k = ATest ->
    dstep s (d_set_a k (match d_strat s with Some _ => AUse | None => ALock end) s)
(** 89: with self._lock *)
| d_acquire : forall s k, d_a s k = ALock -> d_lock s = None ->
    dstep s (d_set_lock (Some (HAdd k)) (d_set_a k ARetest s))
(** 142: if self._strategy: return *)
| d_retest : forall s k, d_a s k = ARetest ->
    dstep s (d_set_a k (match d_strat s with Some _ => AUnlock | None => ACreate end) s)
(** 152: strategy() *)
| d_create : forall s k, d_a s k = ACreate ->
    dstep s (d_add (NCreated (d_next s)) (d_incr (d_set_a k (AStore (d_next s)) s)))
| d_create_err : forall s k, d_a s k = ACreate ->
    dstep s (d_set_a k AUnlockErr s)
(** 152: self._strategy = ... *)
| d_store : forall s k i, d_a s k = AStore i ->
    dstep s (d_set_strat (Some i) (d_set_a k AUnlock s))
(** 89: the lock is released *)
| d_release : forall s k, d_a s k = AUnlock ->
    dstep s (d_set_lock None (d_set_a k AAssert s))
| d_release_err : forall s k, d_a s k = AUnlockErr ->
    dstep s (d_add (NCtorError k) (d_set_lock None (d_set_a k AFailed s)))
(** 91: assert self._strategy is not None *)
| d_assert : forall s k, d_a s k = AAssert -> d_strat s <> None -> dstep s (d_set_a k AUse s)
| d_assert_err : forall s k, d_a s k = AAssert -> d_strat s = None -> dstep s (d_add (NNoStrategy k) (d_set_a k AFailed s))
(** 93: self._strategy.watch_pid *)
| d_use : forall s k i, d_a s k = AUse -> d_strat s = Some i -> dstep s (d_set_a k (AWatch i) s)
| d_use_err : forall s k, d_a s k = AUse -> d_strat s = None -> dstep s (d_add (NNoStrategy k) (d_set_a k AFailed s))
(** 93: ... (pid, callback, args) *)
| d_watch : forall s k i, d_a s k = AWatch i -> dstep s (d_add (NWatch k i) (d_set_a k AOk s))
(** 113: a call of close starts. *)
| d_close : forall s c, d_c s c = CNone -> dstep s (d_add (NClosing c) (d_set_c c CLock s))
(** 118: with self._lock *)
| d_cacquire : forall s c, d_c s c = CLock -> d_lock s = None ->
    dstep s (d_set_lock (Some (HClose c)) (d_set_c c CTake s))
(** 119: strategy = self._strategy *)
| d_take : forall s c, d_c s c = CTake -> dstep s (d_set_c c (CClear (d_strat s)) s)
(** 120: self._strategy = None *)
| d_clear : forall s c o, d_c s c = CClear o -> dstep s (d_set_strat None (d_set_c c (CUnlock o) s))
| d_crelease : forall s c o, d_c s c = CUnlock o -> dstep s (d_set_lock None (d_set_c c (CCall o) s))
(** 122-123: if strategy: strategy.close() *)
| d_cclose : forall s c i, d_c s c = CCall (Some i) -> dstep s (d_add (NStratClose i) (d_set_c c CEnd s))
| d_cnone : forall s c, d_c s c = CCall None -> dstep s (d_set_c c CEnd s).

(** 65-72: __init__; with [thread_strategy] a strategy exists from the start. *)
Definition d_init (s : dst) : Prop :=
  d_lock s = None /\ (forall k, d_a s k = ANone) /\ (forall c, d_c s c = CNone) /\
  ((d_strat s = None /\ d_next s = 0 /\ d_log s = []) \/ (d_strat s = Some 0 /\ d_next s = 1 /\ d_log s = [NCreated 0])).

Inductive dreach : dst -> Prop :=
| dr_init : forall s, d_init s -> dreach s
| dr_step : forall s s', dreach s -> dstep s s' -> dreach s'.
