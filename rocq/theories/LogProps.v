(** Property C64: detailed logging changes nothing. *)
From Verif Require Import Base LogModel.

(** Two functions that no caller can tell apart. *)
Definition same_behaviour {S T} (b : body S) (c : body T) : Prop := forall l, trace b New l = trace c New l.

(** Coroutines: nothing changes for any body, caller and event loop, provided
    that computing the additional text of __aenter__ and __aexit__ does not
    raise. *)
Theorem c64_coroutine_partial S (b : body S) k pre post enabled :
  (k = KAenter -> pre = None) -> (k = KAexit -> post = None) ->
  same_behaviour (log_method_coro enabled k pre post b) b.
Proof.
  intros P Q l. destruct enabled; [|reflexivity]. cbn.
  assert (R : forall o : out S, relay k post o = o) by (intros []; cbn; auto; destruct k; auto; rewrite Q; auto).
  assert (F : b_first (wrap_coro k pre post b) = b_first b) by (cbn; rewrite R; destruct k; auto; rewrite P; auto).
  assert (E : forall o i, resume (wrap_coro k pre post b) o i = resume b o i).
  { intros [|s|] i; cbn -[wrap_coro]; auto; [rewrite F; auto|]. cbn. now rewrite R. }
  generalize (@New S) as o. induction l as [|i l IH]; intros o; cbn; auto. rewrite E. destruct (resume b o i). now rewrite IH.
Qed.
Print Assumptions c64_coroutine_partial.
(** It does change something if the repr of the exception raises: the
    exception that left the `async with` block is replaced. *)
Definition c64_full_claim : Prop := forall S (b : body S) k pre post, same_behaviour (log_method_coro true k pre post b) b.
Theorem c64_coroutine_refuted : ~ c64_full_claim.
Proof.
  intros C. specialize (C nat (mk_body (OReturn 1) (fun s i => OReturn 1)) KAexit None (Some (OtherError 7)) [IResume 0]). discriminate.
Qed.
Print Assumptions c64_coroutine_refuted.

(** Async generators that are only iterated (async for): nothing changes. *)
Definition iterates (i : inp) : Prop := match i with ISend _ | IThrow _ => False | _ => True end.
Definition gsim {S} (o : obj S) (g : obj (gst S)) : Prop :=
  match o, g with
  | New, New => True
  | Fin, Fin => True
  | Susp s, Susp (GAwait s') => s = s'
  | Susp s, Susp (GYield s') => s = s'
  | _, _ => False
  end.
Lemma grelay_sim S (o : out S) : see (grelay o) = see o /\ gsim (after o) (after (grelay o)).
Proof. destruct o; cbn; auto. Qed.
Lemma resume_iterates S (b : body S) o g i : iterates i -> gsim o g ->
  fst (resume (wrap_gen b) g i) = fst (resume b o i) /\ gsim (snd (resume b o i)) (snd (resume (wrap_gen b) g i)).
Proof.
  intros I E. destruct o as [|s|], g as [|[s'|s']|]; cbn in E; try contradiction; subst; cbn.
  - destruct i; cbn in *; try contradiction; auto; apply grelay_sim.
  - apply grelay_sim.
  - destruct i; cbn in *; try contradiction; apply grelay_sim.
  - auto.
Qed.
Theorem c64_iteration S (b : body S) l :
  Forall iterates l -> trace (wrap_gen b) New l = trace b New l.
Proof.
  intros F. assert (E : gsim (@New S) New) by exact I. revert E. generalize (@New S) as o, (@New (gst S)) as g. induction F as [|i l Fi F IH]; intros o g E; cbn; auto.
  destruct (resume_iterates S b o g i Fi E) as (A & B). destruct (resume b o i) as [a o'], (resume (wrap_gen b) g i) as [a' g']. cbn in *. subst. f_equal. auto.
Qed.
Print Assumptions c64_iteration.

(** Async generators that do not look at what is sent or thrown at a yield:
    nothing changes for any caller. *)
Definition passive {S} (b : body S) : Prop :=
  forall s, (forall v, b_step b s (ISend v) = b_step b s INext) /\ forall e, b_step b s (IThrow e) = ORaise e.
Theorem c64_passive_generator S (b : body S) : passive b -> same_behaviour (wrap_gen b) b.
Proof.
  intros P l. assert (E : gsim (@New S) New) by exact I. revert E. generalize (@New S) as o, (@New (gst S)) as g. induction l as [|i l IH]; intros o g E; cbn; auto.
  assert (X : fst (resume (wrap_gen b) g i) = fst (resume b o i) /\ gsim (snd (resume b o i)) (snd (resume (wrap_gen b) g i))).
  { destruct o as [|s|], g as [|[s'|s']|]; cbn in E; try contradiction; subst; cbn.
    - destruct i; cbn in *; try contradiction; auto; apply grelay_sim.
    - apply grelay_sim.
    - destruct (P s') as (P1 & P2). destruct i; cbn in *; try apply grelay_sim; [rewrite P1; apply grelay_sim|rewrite P2; cbn; auto].
    - auto. }
  destruct X as (A & B). destruct (resume b o i) as [a o'], (resume (wrap_gen b) g i) as [a' g']. cbn in *. subst. f_equal. auto.
Qed.
(** The async generator that shellous decorates is one of them. *)
Theorem c64_read_lines decode : same_behaviour (wrap_gen (read_lines_body decode)) (read_lines_body decode).
Proof. apply c64_passive_generator. intros []; split; auto. Qed.
Print Assumptions c64_passive_generator.
Print Assumptions c64_read_lines.
(** In general it does change something: an exception thrown into the generator
    (aclose, too) does not reach the decorated body, so its cleanup does not
    run. *)
Definition c64_generator_claim : Prop := forall S (b : body S), same_behaviour (wrap_gen b) b.
Definition cleanup_body : body nat :=
  mk_body (OYield 1 0) (fun s i => match s, i with 0, IThrow e => OAwait 9 1 | 0, _ => OReturn 0 | _, _ => ORaise GeneratorExit end).
Theorem c64_generator_refuted : ~ c64_generator_claim.
Proof. intros C. specialize (C nat cleanup_body [INext; IThrow GeneratorExit]). discriminate. Qed.
Print Assumptions c64_generator_refuted.

(** Threads. *)
Theorem c64_thread A enabled (r : res A) :
  snd (log_thread_call enabled r) = r /\
  (enabled = true -> exists m, fst (log_thread_call enabled r) = TStarting :: m ++ [TStopping]).
Proof. destruct enabled, r; cbn; split; auto; try discriminate; intros _; [exists []|eexists]; reflexivity. Qed.
Print Assumptions c64_thread.

Example c64_nontrivial : trace (wrap_gen (read_lines_body (fun v => Ok (v + 100)%nat))) New [INext; IResume 5; INext; IResume 0] = [AAwait 0; AYield 105; AAwait 0; AReturn 0]
  /\ Forall iterates [INext; IResume 5; INext; IResume 0].
Proof. split; [reflexivity|repeat constructor]. Qed.
