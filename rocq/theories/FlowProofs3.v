(** Invariants and progress of the readers (C113-C116). *)
From Verif Require Export FlowProofs2.
From Coq Require Import Lia.
Open Scope Z_scope.

Fixpoint queued (q : list rcb) : bytes := match q with [] => [] | CbData b :: q => b ++ queued q | _ :: q => queued q end.
Fixpoint only_data (q : list rcb) : Prop := match q with [] => True | CbData _ :: q => only_data q | _ => False end.
(** Data, then the end. *)
Fixpoint ends (q : list rcb) : Prop :=
  match q with [] => False | CbData _ :: q => ends q | CbRTLost :: q => q = [] | CbRPLost :: q => q = [] end.
Lemma queued_app a b : queued (a ++ b) = queued a ++ queued b.
Proof. induction a as [|[] a IH]; cbn; rewrite ?IH, ?app_assoc; reflexivity. Qed.
Lemma only_app q b : only_data q -> only_data (q ++ [CbData b]).
Proof. induction q as [|[] q IH]; cbn; auto; tauto. Qed.
Lemma only_ends q : only_data q -> ends (q ++ [CbRTLost]).
Proof. induction q as [|[] q IH]; cbn; auto; tauto. Qed.

Record RInv (r : reader) (p : pipe) : Prop := {
  ir_open : rclosing r = false -> only_data (rq r) /\ seof r = false;
  ir_closing : rclosing r = true -> data p = [] /\ w_open p = false /\ (if seof r then rq r = [] else ends (rq r));
  ir_paused : rpaused r = true -> rclosing r = false -> spaused r = true;
  ir_spaused : spaused r = true -> LIMIT < size (sbuf r);
  ir_done : rstate r = RDone -> seof r = true /\ sbuf r = [];
  ir_sink : exists consumed, p_out p = consumed ++ sbuf r ++ queued (rq r) /\ sink r = cut (limit r) consumed
    /\ match rstate r, limit r with RCollect, Some l => (List.length consumed <= l)%nat | RDiscard, Some l => (l <= List.length consumed)%nat | RDiscard, None => False | _, _ => True end }.

Lemma rinv_start l c : RInv (new_reader l) (new_pipe c).
Proof. split; cbn; try discriminate; auto. exists []. split; [reflexivity|]. split; [destruct l; cbn; [now rewrite firstn_nil|reflexivity]|]. destruct l; cbn; lia || auto. Qed.
Lemma rinv_put b r p : RInv r p -> w_open p = true -> RInv r (put b p).
Proof. intros [] W. split; cbn; auto. intros H. destruct (ir_closing0 H) as (_ & X & _). congruence. Qed.
Lemma rinv_shut_w r p : RInv r p -> RInv r (shut_w p).
Proof. intros []. split; cbn; auto. intros H. destruct (ir_closing0 H) as (A & _ & B). auto. Qed.

Ltac rp := cbn [rq rclosing rpaused sbuf seof spaused sink limit rstate up_rq up_rt up_sr up_sink data cap w_open r_open p_in p_out put take shut_w shut_r] in *.

Lemma cut_whole l (b : bytes) : (List.length b <= l)%nat -> firstn l b = b.
Proof. intros H. now apply firstn_all2. Qed.
Lemma got_fields b r : rq (got b r) = rq r /\ rclosing (got b r) = rclosing r /\ rpaused (got b r) = rpaused r /\ sbuf (got b r) = sbuf r /\ seof (got b r) = seof r /\ spaused (got b r) = spaused r /\ limit (got b r) = limit r.
Proof. unfold got. destruct b; [auto 10|]. destruct (rstate r); [|auto 10|auto 10]. destruct (limit r) as [l|] eqn:L; [|rewrite <- L; auto 10]. destruct (_ <? _)%nat; rewrite <- L; auto 10. Qed.
Lemma got_inv c b r :
  sink r = cut (limit r) c ->
  match rstate r, limit r with RCollect, Some l => (List.length c <= l)%nat | RDiscard, Some l => (l <= List.length c)%nat | RDiscard, None => False | _, _ => True end ->
  rstate r <> RDone ->
  let r' := got b r in sink r' = cut (limit r) (c ++ b) /\ (rstate r' = RDone <-> b = [])
  /\ match rstate r', limit r with RCollect, Some l => (List.length (c ++ b) <= l)%nat | RDiscard, Some l => (l <= List.length (c ++ b))%nat | RDiscard, None => False | _, _ => True end.
Proof.
  intros SK ST ND. cbv zeta. unfold got. destruct b as [|z b]; [rp; rewrite app_nil_r; repeat split; auto|].
  assert (NZ : z :: b <> []) by discriminate. set (d := z :: b) in *. clearbody d. destruct (rstate r) eqn:RS; [| |congruence].
  - destruct (limit r) as [l|] eqn:L; rp; cbn [cut] in *.
    + rewrite (cut_whole _ _ ST) in SK. rewrite SK. destruct (l <? List.length (c ++ d))%nat eqn:E; rp.
      * apply Nat.ltb_lt in E. repeat split; try discriminate; try congruence; lia.
      * apply Nat.ltb_ge in E. rewrite (cut_whole _ _ E). repeat split; try discriminate; try congruence; lia.
    + rewrite SK. repeat split; try discriminate; congruence.
  - destruct (limit r) as [l|] eqn:L; rp; cbn [cut] in *; [|destruct ST].
    rewrite SK, app_length. repeat split; try discriminate; try congruence; [|lia]. rewrite firstn_app. replace (l - List.length c)%nat with 0%nat by lia. cbn. now rewrite app_nil_r.
Qed.
Lemma resume_fields r : let r' := maybe_resume r in rq r' = rq r /\ rclosing r' = rclosing r /\ sbuf r' = sbuf r /\ seof r' = seof r /\ sink r' = sink r /\ limit r' = limit r /\ rstate r' = rstate r
  /\ (spaused r' = true -> spaused r = true /\ LIMIT < size (sbuf r))
  /\ (rclosing r = false -> (rpaused r = true -> spaused r = true) -> rpaused r' = true -> spaused r' = true).
Proof.
  cbv zeta. unfold maybe_resume. destruct (spaused r) eqn:SP; cbn [andb].
  - destruct (Z.leb_spec (size (sbuf r)) LIMIT); [|repeat split; auto; lia]. rp. destruct (rclosing r) eqn:C; rp; repeat split; auto; discriminate.
  - repeat split; auto; intros; try congruence; intuition congruence.
Qed.
Lemma CHUNK_pos : exists k, CHUNK = S k.
Proof. exists (Z.to_nat 8191). unfold CHUNK. rewrite <- Z2Nat.inj_succ by lia. reflexivity. Qed.
Lemma firstn_chunk (b : bytes) : firstn CHUNK b = [] -> b = [].
Proof. destruct CHUNK_pos as (k & ->). destruct b; [reflexivity|discriminate]. Qed.

Lemma rinv_step r p r' p' : RInv r p -> r_step r p r' p' -> RInv r' p'.
Proof.
  intros I ST. destruct ST as [n C PA NO LE|C PA D W|b q Q|q Q|q Q|ND RDY].
  - destruct I as [I1 I2 I3 I4 I5 I6]. destruct (I1 C) as [O E]. split; rp; auto; try congruence.
    + intros _. split; [now apply only_app|exact E].
    + destruct I6 as (c & P & K). exists c. split; [|exact K]. rewrite queued_app, P. cbn. now rewrite app_nil_r, <- !app_assoc.
  - destruct I as [I1 I2 I3 I4 I5 I6]. destruct (I1 C) as [O E]. split; rp; auto; try congruence.
    + intros _. rewrite E. split; [exact D|]. split; [exact W|]. now apply only_ends.
    + destruct I6 as (c & P & K). exists c. split; [|exact K]. rewrite queued_app, P. cbn. now rewrite app_nil_r.
  - destruct I as [I1 I2 I3 I4 I5 I6].
    assert (E : seof r = false). { destruct (rclosing r); [|now apply I1]. destruct (I2 eq_refl) as (_ & _ & X). destruct (seof r); [congruence|reflexivity]. }
    assert (B : RInv (up_sr (sbuf r ++ b) (seof r) (spaused r) (up_rq q r)) p).
    { split; rp; rewrite ?Q in *; auto.
      - intros H. destruct (I2 H) as (A1 & A2 & A3). rewrite E in *. auto.
      - intros H. specialize (I4 H). rewrite size_app. unfold size at 2. lia.
      - intros H. destruct (I5 H) as [X _]. congruence.
      - destruct I6 as (c & P & K). exists c. split; [|exact K]. rewrite P. cbn. now rewrite <- !app_assoc. }
    unfold feed_data. cbv zeta. set (r1 := up_sr _ _ _ _) in *. clearbody r1. destruct (negb (spaused r1) && (2 * LIMIT <? size (sbuf r1))) eqn:X; [|exact B].
    apply andb_prop in X. destruct X as [_ X]. apply Z.ltb_lt in X. destruct B as [B1 B2 B3 B4 B5 B6].
    destruct (rclosing r1) eqn:C; split; rp; auto; try (intros; unfold LIMIT in *; lia); congruence.
  - destruct I as [I1 I2 I3 I4 I5 I6]. destruct (rclosing r) eqn:C; [|exfalso; destruct (I1 eq_refl) as [X _]; rewrite Q in X; exact X].
    destruct (I2 eq_refl) as (A1 & A2 & A3). rewrite Q in *. destruct (seof r) eqn:E; [discriminate|]. cbn in A3. subst q.
    split; rp; rewrite ?C, ?E in *; auto; congruence.
  - destruct I as [I1 I2 I3 I4 I5 I6]. destruct (rclosing r) eqn:C; [|exfalso; destruct (I1 eq_refl) as [X _]; rewrite Q in X; exact X].
    destruct (I2 eq_refl) as (A1 & A2 & A3). rewrite Q in *. destruct (seof r) eqn:E; [discriminate|]. cbn in A3. subst q.
    split; rp; rewrite ?C, ?E in *; auto; try congruence. intros H. destruct (I5 H). congruence.
  - destruct I as [I1 I2 I3 I4 I5 I6].
    set (r0 := up_sr (skipn CHUNK (sbuf r)) (seof r) (spaused r) r) in *. destruct (resume_fields r0) as (F1 & F2 & F3 & F4 & F5 & F6 & F7 & F8 & F9).
    set (r1 := maybe_resume r0) in *. destruct (got_fields (firstn CHUNK (sbuf r)) r1) as (G1 & G2 & G3 & G4 & G5 & G6 & G7).
    destruct I6 as (c & P & SK & M).
    destruct (got_inv c (firstn CHUNK (sbuf r)) r1) as (H1 & H2 & H3). { rewrite F5, F6. exact SK. } { rewrite F6, F7. exact M. } { rewrite F7. exact ND. }
    split; rewrite ?G1, ?G2, ?G3, ?G4, ?G5, ?G6, ?F1, ?F2, ?F3, ?F4; auto.
    + intros H. now apply F8.
    + intros H. apply H2 in H. apply firstn_chunk in H. destruct RDY as [X|X]; [congruence|]. split; [exact X|]. unfold r0. rp. rewrite H. apply skipn_nil.
    + exists (c ++ firstn CHUNK (sbuf r)). rewrite G7, F6. split; [|split; [rewrite H1, F6; reflexivity|rewrite F6 in H3; exact H3]].
      unfold r0. rp. rewrite P, <- app_assoc, (app_assoc (firstn CHUNK _)), firstn_skipn. reflexivity.
Qed.

Lemma r_step_pipe r p r' p' : r_step r p r' p' -> (PipeOk p -> PipeOk p') /\ w_open p' = w_open p /\ p_in p' = p_in p.
Proof. intros ST. destruct ST; auto using pk_take, pk_shut_r. Qed.
Lemma r_progress r p : RInv r p ->
  (exists r' p', r_step r p r' p') \/ ((forall r' p', ~ r_step r p r' p') /\ (w_open p = true -> data p = []) /\ (w_open p = false -> rstate r = RDone /\ sbuf r = [] /\ queued (rq r) = [] /\ data p = [])).
Proof.
  intros [I1 I2 I3 I4 I5 I6]. destruct (rq r) as [|[b| |] q] eqn:Q; [|left; eauto using r_step..].
  destruct (rstate r) eqn:RS.
  1,2: (destruct (sbuf r) as [|z b] eqn:B; [|left; do 2 eexists; apply rs_task; [congruence|left; rewrite B; discriminate]];
    destruct (seof r) eqn:E; [left; do 2 eexists; apply rs_task; [congruence|right; exact E]|];
    destruct (rclosing r) eqn:C; [destruct (I2 eq_refl) as (_ & _ & []) |];
    assert (SP : spaused r = false) by (destruct (spaused r); [specialize (I4 eq_refl); change (size []) with 0 in I4; unfold LIMIT in I4; lia|reflexivity]);
    assert (RP : rpaused r = false) by (destruct (rpaused r); [specialize (I3 eq_refl eq_refl); congruence|reflexivity]);
    destruct (data p) as [|z b] eqn:D; [|left; do 2 eexists; apply (rs_data _ _ 1); auto; rewrite D; cbn; lia];
    destruct (w_open p) eqn:W; [right; split; [intros r' p' ST; destruct ST as [k C' PA NO LE|C' PA D' W'|b' q Q'|q Q'|q Q'|ND RDY]; try congruence; [rewrite D in LE; cbn in LE; lia|destruct RDY; congruence]|split; [auto|discriminate]]|left; do 2 eexists; apply rs_eof; auto]).
  destruct (I5 eq_refl) as [E B]. destruct (rclosing r) eqn:C; [|destruct (I1 eq_refl); congruence]. destruct (I2 eq_refl) as (D & W & _).
  right. rewrite B, D. split; [intros r' p' ST; destruct ST; congruence|auto].
Qed.
