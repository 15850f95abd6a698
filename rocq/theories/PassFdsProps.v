(** C128: pass_fds and pass_fds_close for every iterable and every history of
    runs of one command. *)
From Verif Require Import PassFdsModel.
From Verif Require RunOptionsModel CommandModel.
Open Scope Z_scope.

(** The descriptors the user gave: what iterating over the object gives at the
    time the command is first run. *)
Definition given (h : heap) (o : iterable) : list Z := match o with Container l => l | Iterator id => h id end.
(** What one run ought to do: the child gets the descriptors (after those of
    process substitutions), and with pass_fds_close the parent closes each of
    them once, whether or not the launch succeeds. *)
Definition proper (fds : list Z) (close : bool) (subst : list Z) (how : outcome) (e : effect) : Prop :=
  (how = Exec -> match passed e with Some l => l | None => [] end = subst ++ fds)
  /\ closed e = if close then fds else [].

Definition c128_full_claim : Prop :=
  forall o close copt h hows e, In e (history o close copt None hows h) ->
  exists how, In how hows /\ proper (given h o) close [] how e.

(** A generator of one descriptor with pass_fds_close: it is not closed. *)
Theorem c128_iterator_not_closed_refuted : ~ c128_full_claim.
Proof.
  intros C. destruct (C (Iterator 0) true true (fun _ => [7]) [Exec] (mk_effect (Some [7]) []) (or_introl eq_refl)) as (how & _ & _ & H).
  discriminate H.
Qed.
Print Assumptions c128_iterator_not_closed_refuted.

(** Nor does a second run pass anything to the child. *)
Theorem c128_iterator_once : forall id copt h subst h1 e1 e2 h2,
  run (Iterator id) false copt subst Exec h = (e1, h1) ->
  run (Iterator id) false copt subst Exec h1 = (e2, h2) ->
  passed e1 = Some ((match subst with Some s => s | None => [] end) ++ h id)
  /\ passed e2 = Some (match subst with Some s => s | None => [] end).
Proof.
  intros id copt h subst h1 e1 e2 h2 H1 H2. cbn in H1. injection H1 as <- <-. cbn in H2. injection H2 as <- <-.
  split; [reflexivity|]. unfold set_heap. cbn. rewrite Nat.eqb_refl. now rewrite app_nil_r.
Qed.
Print Assumptions c128_iterator_once.

Lemma run_container l close copt subst how h :
  snd (run (Container l) close copt subst how h) = h
  /\ proper l close (match subst with Some s => s | None => [] end) how (fst (run (Container l) close copt subst how h)).
Proof.
  unfold run, proper. destruct how, close, l; cbn; repeat split; try discriminate; try reflexivity; intros _;
    destruct subst; cbn; try rewrite app_nil_r; reflexivity.
Qed.

(** With a container every run of the command is proper, however often it is run. *)
Theorem c128_container_partial : forall l close copt subst h hows,
  Forall2 (proper l close (match subst with Some s => s | None => [] end)) hows (history (Container l) close copt subst hows h).
Proof.
  intros l close copt subst h hows. revert h. induction hows as [|how hows IH]; intros h; cbn [history]; [constructor|].
  pose proof (run_container l close copt subst how h) as [A B]. destruct (run (Container l) close copt subst how h) as [e h'].
  cbn in A, B. subst h'. constructor; auto.
Qed.
Print Assumptions c128_container_partial.

Lemma run_iterator id close copt subst how h e h' :
  run (Iterator id) close copt subst how h = (e, h') ->
  (h' = h \/ h' id = []) /\ (forall fd, In fd (closed e) -> In fd (h id))
  /\ (closed e = [] \/ (closed e = h id /\ h' id = []))
  /\ (how = Exec -> passed e = Some ((match subst with Some s => s | None => [] end) ++ h id))
  /\ (close = true -> h' id = []).
Proof.
  unfold run. destruct how, close; cbn; intros H; injection H as <- <-; unfold set_heap; rewrite ?Nat.eqb_refl; cbn;
    repeat split; auto; try (intros; discriminate); try tauto.
Qed.

(** What becomes of the descriptors of an iterator in the first run, by the way
    it goes: they are closed only if the command fails before they are used; in
    all other cases with close=True they stay open in the parent. *)
Theorem c128_iterator_closes : forall id close copt subst how h e h',
  run (Iterator id) close copt subst how h = (e, h') ->
  closed e = match how with FailsBefore => if close then h id else [] | NotFound | Exec => [] end.
Proof.
  intros id close copt subst how h e h'. unfold run. destruct how, close; cbn; intros H; injection H as <- _; cbn;
    unfold set_heap; rewrite ?Nat.eqb_refl; reflexivity.
Qed.
Print Assumptions c128_iterator_closes.

(** With an iterator: only the first run can pass anything, nothing but the
    given descriptors is ever passed or closed, and no descriptor is closed
    more often, over the whole history, than it was given. *)
Theorem c128_iterator_partial : forall id close copt h hows,
  let es := history (Iterator id) close copt None hows h in
  (forall e l, In e es -> passed e = Some l -> l = h id \/ l = [])
  /\ (List.concat (map closed es) = [] \/ List.concat (map closed es) = h id).
Proof.
  intros id close copt h hows. revert h. induction hows as [|how hows IH]; intros h; cbn [history].
  - split; [intros e l []|now left].
  - destruct (run (Iterator id) close copt None how h) as [e h'] eqn:R.
    pose proof (run_iterator _ _ _ _ _ _ _ _ R) as (A & B & C & D & _). specialize (IH h'). destruct IH as [I1 I2].
    assert (P : passed e = None \/ passed e = Some (h id)).
    { destruct how; [left|left|right; now apply D]; unfold run in R; destruct close; cbn in R; now injection R as <- <-. }
    cbn [map List.concat]. split.
    + intros e1 l [<-|K] E.
      * destruct P as [P|P]; rewrite P in E; [discriminate|]. injection E as <-. now left.
      * destruct (I1 _ _ K E) as [->| ->]; [|now right]. destruct A as [-> | ->]; auto.
    + destruct C as [-> | [-> Z]]; cbn.
      * destruct I2 as [-> | ->]; auto. destruct A as [-> | ->]; auto.
      * rewrite Z in I2. destruct I2 as [-> | ->]; rewrite app_nil_r; auto.
Qed.
Print Assumptions c128_iterator_partial.

(** A command with close=True that is run more than once closes the same
    numbers again: the claim that each descriptor is closed at most once over
    any history is false even for containers. *)
Definition c128_closed_once_claim : Prop :=
  forall l copt h hows, NoDup l -> NoDup (List.concat (map closed (history (Container l) true copt None hows h))).
Theorem c128_closed_once_refuted : ~ c128_closed_once_claim.
Proof.
  intros C. assert (N : NoDup [7]) by (constructor; [intros []|constructor]).
  specialize (C [7] true (fun _ => []) [Exec; Exec] N). cbn in C. inversion C as [|x l X Y]; subst. apply X. now left.
Qed.
Print Assumptions c128_closed_once_refuted.
(** It holds if the command is run once. *)
Theorem c128_closed_once_partial : forall l copt subst h how,
  NoDup l -> NoDup (List.concat (map closed (history (Container l) true copt subst [how] h))).
Proof.
  intros l copt subst h how N. cbn. pose proof (run_container l true copt subst how h) as [_ [_ B]].
  destruct (run (Container l) true copt subst how h) as [e h']. cbn in *. now rewrite app_nil_r, B.
Qed.
Print Assumptions c128_closed_once_partial.

(** This model and RunOptionsModel.setup_pass_fds agree on containers. *)
Theorem c128_same_as_run_options : forall (c : CommandModel.command) s s' h,
  let o := CommandModel.c_opts c in
  RunOptionsModel.setup_pass_fds c s = (s', Ok tt) ->
  setup_pass_fds (Container (CommandModel.o_pass_fds o)) (CommandModel.o_pass_fds_close o) (CommandModel.o_close_fds o)
    (RunOptionsModel.s_pass_fds s) (RunOptionsModel.s_close_fds s) h
  = (RunOptionsModel.s_pass_fds s', RunOptionsModel.s_close_fds s',
     match CommandModel.o_pass_fds o with [] => [] | _ => if CommandModel.o_pass_fds_close o then CommandModel.o_pass_fds o else [] end, h)
  /\ RunOptionsModel.s_open s' = RunOptionsModel.s_open s
       ++ map RunOptionsModel.IFd (if CommandModel.o_pass_fds_close o then CommandModel.o_pass_fds o else []).
Proof.
  intros c s s' h o. unfold RunOptionsModel.setup_pass_fds. fold o.
  destruct (CommandModel.o_pass_fds o) as [|z zs] eqn:E.
  - intros H. injection H as <-. unfold setup_pass_fds. cbn [truth].
    destruct (RunOptionsModel.s_close_fds s) eqn:K; destruct (CommandModel.o_pass_fds_close o); cbn; rewrite ?K, ?app_nil_r; auto.
  - destruct (CommandModel.o_pass_fds_close o); intros H; injection H as <-; unfold setup_pass_fds; cbn; rewrite ?app_nil_r; auto.
Qed.
Print Assumptions c128_same_as_run_options.

Example pf_generator_leaks :
  history (Iterator 0) true true None [Exec; Exec] (fun _ => [7; 8])
  = [mk_effect (Some [7; 8]) []; mk_effect (Some []) []].
Proof. reflexivity. Qed.
Example pf_generator_missing_program :
  history (Iterator 0) true true None [NotFound] (fun _ => [7; 8]) = [mk_effect None []].
Proof. reflexivity. Qed.
Example pf_generator_early :
  history (Iterator 0) true true None [FailsBefore] (fun _ => [7; 8]) = [mk_effect None [7; 8]].
Proof. reflexivity. Qed.
Example pf_list :
  history (Container [7; 8]) true true (Some [5]) [Exec; NotFound] (fun _ => [])
  = [mk_effect (Some [5; 7; 8]) [7; 8]; mk_effect None [7; 8]].
Proof. reflexivity. Qed.
