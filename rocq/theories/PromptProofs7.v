(** A broken pipe. *)
From Verif Require Import PromptSpec Utf8Spec AsyncSpec AsyncProofs HarvestSpec HarvestProofs HarvestProofs2 AsyncInv AsyncInv2 PromptProofs PromptProofs2 PromptProofs3 PromptProofs4 PromptProofs5.
Open Scope Z_scope.
Section S.
Context (cfg : settings).
Notation step := (pstep cfg). Notation fin := (pfinish cfg).
Notation rem := (PromptProofs.rem cfg). Notation wf := (PromptProofs.wf cfg). Notation remaining := (PromptSpec.remaining cfg). Notation ready := (PromptProofs2.ready cfg). Notation ended := (PromptProofs.ended cfg). Notation unread := (PromptProofs2.unread cfg). Notation outcome := (PromptProofs2.outcome cfg). Notation working := (PromptProofs2.working cfg). Notation expect_result := (PromptProofs4.expect_result cfg). Notation all_read := (PromptProofs5.all_read cfg). Notation command_result := (PromptProofs5.command_result cfg).

Lemma round_drain r x x' o : round cfg r x = Some (x', o) -> p_drain x' = p_drain x.
Proof.
  assert (RC : forall x1 od, read_chunk cfg x = Some (x1, od) -> p_drain x1 = p_drain x).
  { intros x1 od. unfold read_chunk. assert (G : forall chunk, match idec_decode (c_codec cfg) (c_errors cfg) (p_dec x) chunk (match chunk with [] => true | _ => false end) with
      | None => Some (mk_px (p_pending x) (match chunk with [] => true | _ => false end) (p_dec x) (skipn (c_chunk cfg) (p_buf x)) (p_src x) (p_feof x) (p_active x) (p_next x) (p_drain x) (p_echo x) (p_sent x), None)
      | Some (data, dec) => Some (mk_px (p_pending x) (match chunk with [] => true | _ => false end) dec (skipn (c_chunk cfg) (p_buf x)) (p_src x) (p_feof x) (p_active x) (p_next x) (p_drain x) (p_echo x) (p_sent x), Some data)
      end = Some (x1, od) -> p_drain x1 = p_drain x).
    { intros chunk. destruct (idec_decode (c_codec cfg) (c_errors cfg) _ _ _) as [[? ?]|]; intros Q; injection Q as <- <-; reflexivity. }
    destruct (p_buf x), (p_feof x); try discriminate; apply G. }
  destruct r as [p|]; cbn [round]; [unfold pattern_round|unfold some_round]; destruct (read_chunk cfg x) as [[x1 od]|]; try discriminate; specialize (RC _ _ eq_refl).
  - destruct od as [data|]; [|intros Q; injection Q as <- <-; exact RC].
    assert (G : match search_pending p (set_pending (p_pending x1 ++ data) x1) with
                | Some (x3, (o, m)) => Some (x3, Some (TValue (VMatch o m)))
                | None => Some (set_pending (p_pending x1 ++ data) x1, if p_eof x1 then Some (TFail EOFError) else None) end = Some (x', o) -> p_drain x' = p_drain x).
    { unfold search_pending. cbn [p_pending set_pending]. destruct (p (p_pending x1 ++ data)) as [[? ?]|]; intros Q; injection Q as <- <-; exact RC. }
    destruct data, (p_eof x1); try exact G. intros Q. injection Q as <- <-. exact RC.
  - destruct od as [data|]; intros Q; injection Q as <- <-; exact RC.
Qed.
Lemma step_broken x ev x' c e : step x ev = Some (x', c) -> p_drain x = Some (Some e) -> p_drain x' = Some (Some e).
Proof.
  intros H B. destruct ev as [n| | | |d|b|]; cbn [pstep] in H.
  - destruct (p_feof x); [discriminate|]. injection H as <- _. exact B.
  - destruct (p_src x); [|discriminate]. injection H as <- _. exact B.
  - destruct (p_active x) as [[id r]|]; [|discriminate]. destruct (p_eof x); [discriminate|]. destruct (round cfg r x) as [[x1 [o|]]|] eqn:R; try discriminate. injection H as <- _. apply round_drain in R. congruence.
  - destruct (p_active x) as [[id [p|]]|]; try discriminate. destruct (p_eof x); [injection H as <- _; exact B|].
    destruct (round cfg RSome x) as [[x1 [o|]]|] eqn:R; try discriminate. injection H as <- _. apply round_drain in R. cbn. congruence.
  - rewrite B in H. discriminate.
  - destruct (p_echo x); [|discriminate]. injection H as <- _. exact B.
  - injection H as <- _. exact B.
Qed.
Lemma fin_broken x t o x' e : fin x t o = Some x' -> p_drain x = Some (Some e) -> p_drain x' = Some (Some e).
Proof.
  intros H B. apply finish_cases in H as [(_ & _ & ->)|[(_ & _ & _ & r & x1 & _ & _ & R & ->)|(_ & _ & _ & _ & [(_ & ->)| ->])]]; auto.
  - unfold deactivate. destruct (is_active _ _); exact B.
  - apply round_drain in R. cbn. congruence.
  - unfold deactivate. destruct (is_active _ _); exact B.
Qed.
Lemma drain_stable e : stable step fin (fun w : world => p_drain (w_x w) = Some (Some e)).
Proof.
  constructor.
  - intros w ev w' c B H. destruct ev as [j o|ee]; cbn [env_step] in H.
    + destruct (nth_error (w_tasks w) j) as [t|]; [|discriminate]. destruct (t_out t); [discriminate|]. destruct (fin (w_x w) t o) as [x'|] eqn:FI; [|discriminate]. injection H as <- _. exact (fin_broken _ _ _ _ _ FI B).
    + destruct (step (w_x w) ee) as [[x' c']|] eqn:ST; [|discriminate]. injection H as <- _. exact (step_broken _ _ _ _ _ ST B).
  - intros w B. exact B.
  - intros w i B. unfold req. destruct (task_done w i); exact B.
  - intros w k B. exact B.
Qed.
Definition broken (e : exn) (i id : nat) (w : world) : Prop :=
  p_drain (w_x w) = Some (Some e) /\ exists t, nth_error (w_tasks w) i = Some t /\ t_kind t = KDrain id
  /\ (t_out t = None \/ t_out t = Some TCancelled \/ (t_out t = Some (TFail e) /\ is_Exception e = true)).
Lemma broken_stable e i id : stable0 step fin (broken e i id).
Proof.
  constructor.
  - intros w ev w' c (B & t & N & K1 & O) H. assert (B' := st_env _ _ _ (drain_stable e) _ _ _ _ B H). split; [exact B'|]. destruct ev as [j o|ee]; cbn [env_step] in H.
    + destruct (nth_error (w_tasks w) j) as [tj|] eqn:NJ; [|discriminate]. destruct (t_out tj) eqn:TO; [discriminate|]. destruct (fin (w_x w) tj o) as [x'|] eqn:FI; [|discriminate]. injection H as <- _. cbn.
      destruct (Nat.eq_dec j i) as [->|NE]; [|exists t; rewrite nth_upd_other by congruence; auto].
      rewrite N in NJ. injection NJ as <-. rewrite (nth_upd_same _ _ _ _ N). eexists. split; [reflexivity|]. cbn. split; [exact K1|]. right.
      unfold pfinish in FI. rewrite K1, B in FI. destruct (t_creq t) as [|n].
      * destruct o as [[a m|]|e'|]; try discriminate; [|auto]. destruct (is_active _ _); [discriminate|]. destruct (same_error e' e) eqn:SE; [|discriminate]. right. destruct e', e; try discriminate; auto.
      * destruct o; try discriminate. auto.
    + destruct (step (w_x w) ee) as [[x' c']|] eqn:ST; [|discriminate]. injection H as <- _. exists t. auto.
  - intros w H. exact H.
  - intros w j (B & t & N & K1 & O). split; [exact (st_req _ _ _ (drain_stable e) _ _ B)|]. unfold req. destruct (task_done w j) eqn:D; [eauto|]. cbn.
    destruct (Nat.eq_dec j i) as [->|NE]; [|exists t; rewrite nth_upd_other by congruence; auto]. rewrite (nth_upd_same _ _ _ _ N). eexists. split; [reflexivity|]. cbn. auto.
Qed.

Lemma send_broken txt ending ne tmo w r w' e : p_drain (w_x w) = Some (Some e) -> send cfg txt ending ne tmo w r w' ->
  exists i, (List.length (w_tasks w) <= i)%nat
  /\ (r = Ok tt -> task_out w' i = Some TCancelled)
  /\ (task_out w' i = Some (TFail e) -> r = Err e \/ r = Err CancelledError).
Proof.
  intros B H.
  assert (KM : forall (P : world -> Prop) f, (forall w : world, P w -> P (mk_world (w_tasks w) (f (w_x w)) (w_hist w))) -> keeps P (modx (K := rkind) (V := rval) f)) by (intros; apply k_modx; auto).
  apply b_inv in H as [([] & w1 & H1 & H)|(ee & H1 & ->)].
  2:{ exists (List.length (w_tasks w')). split; [destruct ne; [|destruct H1 as [Q _]; discriminate]|split; [discriminate|]].
      - pose proof (grow_stable cfg (List.length (w_tasks w))) as ST. refine ((_ : keeps (fun u : world => (List.length (w_tasks w) <= List.length (w_tasks u))%nat) (wait_no_echo cfg)) w _ w' (Nat.le_refl _) H1).
        apply k_bind; [destruct (c_log cfg); [apply KM; auto|apply k_ret]|]. intros _. generalize (4 * 30)%nat. induction n as [|n IH]; cbn [poll_echo]; [apply k_raise|].
        apply k_bind; [apply k_getx|]. intros e1. apply k_bind; [apply KM; auto|]. intros _. destruct e1; [|apply k_ret]. apply k_bind; [now apply k_await_yield|]. intros _. exact IH.
      - unfold task_out. rewrite (proj2 (nth_error_None _ _)) by lia. discriminate. }
  assert (P1 : p_drain (w_x w1) = Some (Some e) /\ (List.length (w_tasks w) <= List.length (w_tasks w1))%nat).
  { destruct ne; [|destruct H1 as [_ ->]; auto].
    assert (G : forall P, stable step fin P -> (forall l (u : world), P u -> P (mk_world (w_tasks u) (add_sent l (w_x u)) (w_hist u))) -> P w -> P w1).
    { intros P ST AD PW. refine ((_ : keeps P (wait_no_echo cfg)) w _ w1 PW H1). apply k_bind; [destruct (c_log cfg); [apply KM; auto|apply k_ret]|]. intros _. generalize (4 * 30)%nat. induction n as [|n IH]; cbn [poll_echo]; [apply k_raise|].
      apply k_bind; [apply k_getx|]. intros e1. apply k_bind; [apply KM; auto|]. intros _. destruct e1; [|apply k_ret]. apply k_bind; [now apply k_await_yield|]. intros _. exact IH. }
    split; [refine (G _ (drain_stable e) _ B); auto|refine (G _ (grow_stable cfg _) _ (Nat.le_refl _)); auto]. }
  destruct P1 as (B1 & LEN). clear H1. 
  destruct (send_data cfg txt ending) as [d|].
  2:{ destruct H as [-> ->]. exists (List.length (w_tasks w1)). split; [exact LEN|]. split; [discriminate|]. unfold task_out. rewrite (proj2 (nth_error_None _ _)) by lia. discriminate. }
  apply b_inv in H as [([] & w2 & [_ ->] & H)|(e1 & [Q _] & _)]; [|discriminate].
  apply b_inv in H as [([] & w2 & H1 & H)|(e1 & H1 & _)]; [|destruct (c_log cfg); destruct H1 as [Q _]; discriminate].
  assert (P2 : p_drain (w_x w2) = Some (Some e) /\ w_tasks w2 = w_tasks w1) by (destruct (c_log cfg); destruct H1 as [_ ->]; auto). clear H1. destruct P2 as (B2 & T2). rewrite <- T2 in LEN. clear B1 T2 w1.
  apply b_inv in H as [(id & w1 & H1 & H)|(e1 & H1 & _)].
  2:{ exfalso. apply b_inv in H1 as [(a & w3 & [_ ->] & H1)|(e' & [Q _] & _)]; [|discriminate]. apply b_inv in H1 as [(b & w3 & _ & [Q _])|(e' & [Q _] & _)]; discriminate. }
  apply b_inv in H1 as [(a & w3 & [Q ->] & H1)|(e' & [Q _] & _)]; [|discriminate]. injection Q as ->.
  apply b_inv in H1 as [([] & w3 & [_ ->] & [Q ->])|(e' & [Q _] & _)]; [|discriminate]. injection Q as ->.
  set (x1 := mk_px (p_pending (w_x w2)) (p_eof (w_x w2)) (p_dec (w_x w2)) (p_buf (w_x w2)) (p_src (w_x w2)) (p_feof (w_x w2)) (Some (p_next (w_x w2), RSome)) (S (p_next (w_x w2))) (p_drain (w_x w2)) (p_echo (w_x w2)) (p_sent (w_x w2))) in *.
  set (i := List.length (w_tasks w2)) in *. set (k := KDrain (p_next (w_x w2))) in *. set (w0 := mk_world (w_tasks w2 ++ [mk_task k None 0]) x1 (w_hist w2)) in *.
  assert (H' : exists rh wh, harvest_results_tasks step fin [i] (has_timeout cfg tmo) w0 rh wh
      /\ ((exists e1, rh = Err e1 /\ r = Err e1 /\ w' = wh) \/ (exists cr, rh = Ok cr /\ bindM (check_results cr) (fun _ => ret tt) wh r w'))).
  { assert (G : forall rh wh, harvest_results step fin [AwCoro k] (has_timeout cfg tmo) (mk_world (w_tasks w2) x1 (w_hist w2)) rh wh -> harvest_results_tasks step fin [i] (has_timeout cfg tmo) w0 rh wh).
    { intros rh wh HH. apply b_inv in HH as [(ts & w3 & H1 & HH)|(e1 & H1 & _)].
      - cbn in H1. apply b_inv in H1 as [(j & w4 & [Q ->] & H1)|(e' & [Q _] & _)]; [|discriminate]. injection Q as ->.
        apply b_inv in H1 as [(js & w5 & [Q ->] & [Q' ->])|(e' & [Q _] & _)]; [|discriminate]. injection Q as ->. injection Q' as ->. exact HH.
      - exfalso. cbn in H1. apply b_inv in H1 as [(j & w3 & [_ ->] & H1)|(e' & [Q _] & _)]; [|discriminate]. apply b_inv in H1 as [(js & w4 & [_ ->] & [Q _])|(e' & [Q _] & _)]; discriminate. }
    apply b_inv in H as [(cr & w3 & H1 & H)|(e1 & H1 & ->)]; apply G in H1; [exists (Ok cr), w3|exists (Err e1), w']; split; eauto 6. }
  destruct H' as (rh & wh & HH & K1).
  assert (BW : broken e i (p_next (w_x w2)) w0).
  { split; [exact B2|]. exists (mk_task k None 0). cbn. rewrite nth_error_app2 by (unfold i; lia). unfold i. rewrite Nat.sub_diag. auto. }
  assert (BH := k0_harvest_results_tasks _ _ _ (broken_stable e i (p_next (w_x w2))) [i] (has_timeout cfg tmo) _ _ _ BW HH).
  assert (SAME : w' = wh).
  { destruct K1 as [(e1 & _ & _ & ->)|(cr & _ & K1)]; [reflexivity|].
    assert (CI : forall rc wc, check_results cr wh rc wc -> wc = wh).
    { unfold check_results. intros rc wc. destruct (fst cr); [now intros [_ ->]|]. destruct (snd cr) as [|[v|e1|] [|]]; try (now intros [_ ->]). destruct (is_Exception e1); now intros [_ ->]. }
    apply b_inv in K1 as [(a & w3 & K1 & [_ ->])|(e1 & K1 & _)]; eauto. }
  subst wh. exists i. split; [exact LEN|].
  assert (RQ : forall u : world, broken e i (p_next (w_x w2)) u -> task_done u i = false -> asked i (req u i)).
  { intros u (_ & t & N & _) DU. unfold req. rewrite DU. exists (mk_task (t_kind t) (t_out t) (S (t_creq t))). cbn. rewrite (nth_upd_same _ _ _ _ N).
    split; [reflexivity|]. split; [cbn; lia|]. cbn. left. unfold task_done, task_out in DU. rewrite N in DU. destruct (t_out t); [discriminate|reflexivity]. }
  destruct (harvest_one step fin i (has_timeout cfg tmo) w0 rh w' _ _ (broken_stable e i (p_next (w_x w2))) (asked_stable cfg i) RQ BW HH) as [(o & -> & TO & _)|[(o & -> & TO)|[(-> & _ & (t0 & N0 & _ & O0) & D)|[(e1 & -> & NE & D & _)|(e1 & -> & TO & RR)]]]];
    destruct BH as (_ & t & N & KT & OUT); destruct K1 as [(e2 & Q & -> & _)|(cr & Q & K1)]; try discriminate; injection Q as <-.
  - apply b_inv in K1 as [(a & w3 & K1 & [-> _])|(e1 & K1 & ->)]; apply check_inv in K1 as (_ & [(Q & _)|[(_ & e2 & -> & IE & Q)|(_ & Q & IE)]]); try discriminate.
    + injection Q as ->. unfold task_out in *. rewrite N in *. split; [intros _|intros Q; right]; destruct OUT as [Q'|[Q'|(Q' & IX)]]; try congruence.
      * rewrite TO in Q'. injection Q' as ->. specialize (IE _ eq_refl). congruence.
      * exfalso. rewrite TO in Q'. injection Q' as ->. specialize (IE _ eq_refl). congruence.
    + injection Q as ->. split; [discriminate|]. intros Q. left. congruence.
  - apply b_inv in K1 as [(a & w3 & K1 & [-> _])|(e1 & K1 & ->)]; apply check_inv in K1 as (_ & [(_ & Q)|[(Q & _)|(Q & _)]]); try discriminate. injection Q as ->. split; [discriminate|auto].
  - split; [discriminate|]. intros Q. exfalso. unfold task_out in Q. rewrite N0 in Q. destruct O0; congruence.
  - split; [discriminate|]. intros Q. exfalso. unfold task_done in D. rewrite Q in D. discriminate.
  - split; [discriminate|]. intros Q. left. congruence.
Qed.
End S.
