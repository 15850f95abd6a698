From Verif Require Import PromptSpec Utf8Spec AsyncSpec AsyncProofs HarvestSpec HarvestProofs HarvestProofs2 AsyncInv AsyncInv2 PromptProofs PromptProofs2.
Open Scope Z_scope.

Section S.
Context (cfg : settings) (good : good_settings cfg).
Notation step := (pstep cfg). Notation fin := (pfinish cfg).
Notation rem := (PromptProofs.rem cfg). Notation wf := (PromptProofs.wf cfg). Notation remaining := (PromptSpec.remaining cfg). Notation ready := (PromptProofs2.ready cfg). Notation ended := (PromptProofs.ended cfg). Notation unread := (PromptProofs2.unread cfg). Notation outcome := (PromptProofs2.outcome cfg). Notation working := (PromptProofs2.working cfg).

Lemma b_inv {A B} (m : M A) (f : A -> M B) w r w' : bindM m f w r w' ->
  (exists a w1, m w (Ok a) w1 /\ f a w1 r w') \/ (exists e, m w (Err e) w' /\ r = Err e).
Proof. auto. Qed.
Lemma reqs_none i (h : list (hev rval)) : no_req h -> reqs i h = 0%nat.
Proof.
  induction h as [|e h IH]; intros N; [reflexivity|]. assert (N' : no_req h) by (intros j J; apply (N j); now right).
  destruct e; cbn; auto. exfalso. apply (N i0). now left.
Qed.

Lemma harvest_reader (K : nat -> rkind) r tmo w rh w' F : (forall id, kid (K id) = id) ->
  ready w -> remaining w F -> sane_reader r ->
  bindM (new_reader r) (fun id => harvest_results step fin [AwCoro (K id)] tmo) w rh w' ->
  let i := List.length (w_tasks w) in let k := K (p_next (w_x w)) in
  working i k r F (p_sent (w_x w)) (S (p_next (w_x w))) w' /\ ready w' /\
  ((exists o, rh = Ok (false, [o]) /\ task_out w' i = Some o /\ (reading k -> o <> TCancelled))
   \/ (exists o, rh = Ok (true, [o]) /\ task_out w' i = Some o)
   \/ (exists e, rh = Err e /\ (e = TimeoutError /\ tmo = true \/ e = cancel_failed \/ e = InvalidStateError) /\ (task_out w' i = None \/ task_out w' i = Some TCancelled))).
Proof.
  intros KI RD R SR H i k.
  apply b_inv in H as [(id & w1 & H1 & H)|(e & H1 & ->)].
  2:{ exfalso. apply b_inv in H1 as [(a & w2 & [_ ->] & H1)|(e' & [Q _] & _)]; [|discriminate]. apply b_inv in H1 as [(b & w2 & _ & [Q _])|(e' & [Q _] & _)]; discriminate. }
  apply b_inv in H1 as [(a & w2 & [Q ->] & H1)|(e' & [Q _] & _)]; [|discriminate]. injection Q as ->.
  apply b_inv in H1 as [([] & w2 & [_ ->] & [Q ->])|(e' & [Q _] & _)]; [|discriminate]. injection Q as ->. fold k in H.
  set (x1 := mk_px (p_pending (w_x w)) (p_eof (w_x w)) (p_dec (w_x w)) (p_buf (w_x w)) (p_src (w_x w)) (p_feof (w_x w)) (Some (p_next (w_x w), r)) (S (p_next (w_x w))) (p_drain (w_x w)) (p_echo (w_x w)) (p_sent (w_x w))) in *.
  apply b_inv in H as [(ts & w2 & H1 & H)|(e & H1 & _)].
  2:{ exfalso. cbn in H1. apply b_inv in H1 as [(j & w2 & [_ ->] & H1)|(e' & [Q _] & _)]; [|discriminate]. apply b_inv in H1 as [(js & w3 & [_ ->] & [Q _])|(e' & [Q _] & _)]; discriminate. }
  assert (TS : ts = [i] /\ w2 = mk_world (w_tasks w ++ [mk_task k None 0]) x1 (w_hist w)).
  { cbn in H1. apply b_inv in H1 as [(j & w3 & [Q ->] & H1)|(e' & [Q _] & _)]; [|discriminate]. injection Q as ->.
    apply b_inv in H1 as [(js & w4 & [Q ->] & [Q' ->])|(e' & [Q _] & _)]; [|discriminate]. injection Q as ->. injection Q' as ->. split; reflexivity. }
  destruct TS as [-> ->]. clear H1. set (w0 := mk_world (w_tasks w ++ [mk_task k None 0]) x1 (w_hist w)) in *.
  assert (NI : nth_error (w_tasks w0) i = Some (mk_task k None 0)) by (cbn; rewrite nth_error_app2 by (unfold i; lia); unfold i; now rewrite Nat.sub_diag).
  assert (NJ : forall j t, nth_error (w_tasks w0) j = Some t -> j <> i -> nth_error (w_tasks w) j = Some t).
  { cbn. intros j t N NE. destruct (Nat.lt_ge_cases j i) as [L|L]; [now rewrite nth_error_app1 in N|]. rewrite nth_error_app2 in N by exact L. fold i in N. destruct (j - i)%nat as [|[|]] eqn:D; [lia|discriminate|discriminate]. }
  assert (WK : working i k r F (p_sent (w_x w)) (S (p_next (w_x w))) w0).
  { destruct RD as [W ID AS SA]. constructor.
    - exact W.
    - right. cbn. unfold k. now rewrite KI.
    - exists (mk_task k None 0). rewrite NI. repeat split; auto. discriminate.
    - intros j t N NE. apply NJ in N; [|exact NE]. split; [|now apply (AS j)]. specialize (ID j t N). unfold k. rewrite KI. lia.
    - unfold task_done, task_out. rewrite NI. discriminate.
    - unfold task_out. rewrite NI. exact R.
    - reflexivity.
    - reflexivity.
    - intros j t N. destruct (Nat.eq_dec j i) as [->|NE]; [rewrite NI in N; injection N as <-; cbn; unfold k; rewrite KI; lia|]. apply NJ in N; [|exact NE]. specialize (ID j t N). lia. }
  assert (WK' := k0_harvest_results_tasks _ _ _ (working_stable cfg good i k r F (p_sent (w_x w)) (S (p_next (w_x w))) SR) [i] tmo _ _ _ WK H).
  assert (HO := harvest_one step fin i tmo w0 rh w' _ _ (working_stable cfg good i k r F (p_sent (w_x w)) (S (p_next (w_x w))) SR) (asked_stable cfg i)).
  assert (RQ : forall u : world, working i k r F (p_sent (w_x w)) (S (p_next (w_x w))) u -> task_done u i = false -> asked i (req u i)).
  { intros u WU DU. destruct (wk_task _ _ _ _ _ _ _ _ WU) as (t & N & _). unfold req. rewrite DU. exists (mk_task (t_kind t) (t_out t) (S (t_creq t))). cbn. rewrite (nth_upd_same _ _ _ _ N).
    split; [reflexivity|]. split; [cbn; lia|]. cbn. left. unfold task_done, task_out in DU. rewrite N in DU. destruct (t_out t); [discriminate|reflexivity]. }
  specialize (HO RQ WK H).
  assert (RES : (exists o, rh = Ok (false, [o]) /\ task_out w' i = Some o /\ (reading k -> o <> TCancelled))
   \/ (exists o, rh = Ok (true, [o]) /\ task_out w' i = Some o)
   \/ (exists e, rh = Err e /\ (e = TimeoutError /\ tmo = true \/ e = cancel_failed \/ e = InvalidStateError) /\ (task_out w' i = None \/ task_out w' i = Some TCancelled) /\ asked i w')).
  { destruct HO as [(o & -> & TO & _ & AW)|[(o & -> & TO)|[(-> & TM & AK & D)|[(e & -> & NE & D & AK)|(e & -> & TO & RR)]]]].
    - left. exists o. split; [reflexivity|]. split; [exact TO|]. intros RK ->.
      destruct (wk_task _ _ _ _ _ _ _ _ WK') as (t & N & KT & CR). unfold task_out in TO. rewrite N in TO. specialize (CR RK TO).
      destruct (await_wait_spec _ _ _ _ _ _ _ _ AW ltac:(discriminate)) as (h & EX & NR & _). destruct EX as (_ & EX & _).
      destruct (EX _ _ NI) as (t' & N' & _ & _ & C'). rewrite N in N'. injection N' as <-. rewrite (reqs_none _ _ NR) in C'. cbn in C'. lia.
    - right; left. eauto.
    - right; right. exists TimeoutError. split; [reflexivity|]. split; [auto|]. split; [|exact AK].
      destruct AK as (t & N & _ & O). unfold task_out. rewrite N. destruct O; auto.
    - right; right. exists e. split; [reflexivity|]. split; [auto|]. split; [|exact AK]. left. unfold task_done in D. destruct (task_out w' i); [discriminate|reflexivity].
    - exfalso. pose proof (wk_out _ _ _ _ _ _ _ _ WK') as OC. rewrite TO in OC. destruct OC as [(_ & [(_ & Q)|(_ & _ & Q)])|(_ & EN)]; [discriminate| |].
      + specialize (Q e eq_refl). destruct RR as [Q'|(m & Q')]; injection Q' as ->; discriminate.
      + destruct RR as [Q'|(m & Q')]; injection Q' as ->; exact EN. }
  split; [exact WK'|]. split.
  - destruct WK' as [W A T O D OC SE NX ID]. constructor.
    + exact W.
    + rewrite NX. exact ID.
    + intros j t N ON RK. destruct (Nat.eq_dec j i) as [->|NE]; [|now apply (O j)].
      assert (TO : task_out w' i = None) by (unfold task_out; now rewrite N).
      destruct RES as [(o & _ & TO' & _)|[(o & _ & TO')|(e & _ & _ & _ & (t' & N' & C & _))]]; congruence.
    + intros id r' Q. destruct A as [A|A]; [congruence|]. rewrite A in Q. injection Q as <- <-. exact SR.
  - destruct RES as [RES|[RES|(e & A & B & C & _)]]; [now left|right; now left|right; right]. eauto 6.
Qed.
End S.
