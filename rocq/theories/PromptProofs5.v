(** read_pending, read_all, send, command; whole sessions. *)
From Verif Require Import PromptSpec Utf8Spec AsyncSpec AsyncProofs HarvestSpec HarvestProofs HarvestProofs2 AsyncInv AsyncInv2 PromptProofs PromptProofs2 PromptProofs3 PromptProofs4.
Open Scope Z_scope.

Section S.
Context (cfg : settings) (good : good_settings cfg).
Notation step := (pstep cfg). Notation fin := (pfinish cfg).
Notation rem := (PromptProofs.rem cfg). Notation wf := (PromptProofs.wf cfg). Notation remaining := (PromptSpec.remaining cfg). Notation ready := (PromptProofs2.ready cfg). Notation ended := (PromptProofs.ended cfg). Notation unread := (PromptProofs2.unread cfg). Notation outcome := (PromptProofs2.outcome cfg). Notation working := (PromptProofs2.working cfg). Notation expect_result := (PromptProofs4.expect_result cfg).

Lemma read_pending_inv w r w' : read_pending w r w' -> r = Ok (p_pending (w_x w)) /\ w' = mk_world (w_tasks w) (set_pending [] (w_x w)) (w_hist w).
Proof.
  intros H. apply b_inv in H as [(t & w1 & [Q ->] & H)|(e & [Q _] & _)]; [|discriminate]. injection Q as ->.
  apply b_inv in H as [([] & w1 & [_ ->] & [-> ->])|(e & [Q _] & _)]; [|discriminate]. auto.
Qed.
Lemma read_pending_spec w r w' F : ready w -> remaining w F -> read_pending w r w' ->
  ready w' /\ p_sent (w_x w') = p_sent (w_x w) /\ p_pending (w_x w') = [] /\ p_eof (w_x w') = p_eof (w_x w)
  /\ exists t F', r = Ok t /\ t = p_pending (w_x w) /\ F = t ++ F' /\ remaining w' F'.
Proof.
  intros RD (rest & d & R & ->) H. apply read_pending_inv in H as (-> & ->). split; [now apply ready_set|]. repeat (split; [reflexivity|]).
  exists (p_pending (w_x w)), rest. repeat (split; [reflexivity|]). exists rest, d. auto.
Qed.

(** The common end of send and read_all. *)
Lemma reader_then (K : nat -> rkind) r tmo w ru w' F : (forall id, kid (K id) = id) -> ready w -> remaining w F -> sane_reader r ->
  bindM (new_reader r) (fun id => bindM (harvest_results step fin [AwCoro (K id)] tmo) (fun cr => bindM (check_results cr) (fun _ => ret tt))) w ru w' ->
  let i := List.length (w_tasks w) in let k := K (p_next (w_x w)) in
  working i k r F (p_sent (w_x w)) (S (p_next (w_x w))) w' /\ ready w' /\
  ((ru = Ok tt /\ exists o, task_out w' i = Some o /\ (reading k -> o <> TCancelled) /\ forall e, o = TFail e -> is_Exception e = false)
   \/ (exists e, ru = Err e /\ task_out w' i = Some (TFail e) /\ is_Exception e = true)
   \/ (ru = Err CancelledError /\ exists o, task_out w' i = Some o)
   \/ (exists e, ru = Err e /\ (e = TimeoutError /\ tmo = true \/ e = cancel_failed \/ e = InvalidStateError) /\ (task_out w' i = None \/ task_out w' i = Some TCancelled))).
Proof.
  intros KI RD R SR H i k.
  assert (H' : exists rh wh, bindM (new_reader r) (fun id => harvest_results step fin [AwCoro (K id)] tmo) w rh wh
      /\ ((exists e, rh = Err e /\ ru = Err e /\ w' = wh) \/ (exists cr, rh = Ok cr /\ bindM (check_results cr) (fun _ => ret tt) wh ru w'))).
  { apply b_inv in H as [(id & w1 & H1 & H)|(e & H1 & ->)].
    - apply b_inv in H as [(cr & w2 & H2 & H)|(e & H2 & ->)].
      + exists (Ok cr), w2. split; [left; eauto|]. right; eauto.
      + exists (Err e), w'. split; [left; eauto|]. left; eauto.
    - exists (Err e), w'. split; [right; eauto|]. left; eauto. }
  destruct H' as (rh & wh & HH & K1).
  destruct (harvest_reader cfg good K r _ _ _ _ _ KI RD R SR HH) as (WK & RD' & RES). fold i k in WK, RES.
  assert (CK : forall c o, bindM (check_results (c, [o])) (fun _ => ret tt) wh ru w' -> w' = wh /\
    ((c = true /\ ru = Err CancelledError) \/ (c = false /\ exists e, o = TFail e /\ is_Exception e = true /\ ru = Err e)
     \/ (c = false /\ ru = Ok tt /\ forall e, o = TFail e -> is_Exception e = false))).
  { intros c o H1. apply b_inv in H1 as [(o' & w2 & H1 & [-> ->])|(e & H1 & ->)]; apply check_inv in H1 as (-> & [(-> & Q)|[(-> & e' & -> & IE & Q)|(-> & Q & IE)]]); try discriminate; (split; [reflexivity|]).
    - auto.
    - injection Q as ->. auto.
    - injection Q as ->. right; left. eauto. }
  destruct RES as [(o & -> & TO & NC)|[(o & -> & TO)|(e & -> & NE & TO)]]; destruct K1 as [(e1 & Q & -> & ->)|(cr & Q & K2)]; try discriminate; injection Q as <-.
  - apply CK in K2 as (-> & [(Q & _)|[(_ & e & -> & IE & ->)|(_ & -> & IE)]]); [discriminate| |]; (split; [exact WK|]; split; [exact RD'|]).
    + right; left. eauto.
    + left. eauto.
  - apply CK in K2 as (-> & [(_ & ->)|[(Q & _)|(Q & _)]]); try discriminate. split; [exact WK|]; split; [exact RD'|]. right; right; left. eauto.
  - split; [exact WK|]; split; [exact RD'|]. right; right; right. eauto.
Qed.

Definition kept (F : text) (s : list sendev) (w : world) : Prop := ready w /\ remaining w F /\ p_sent (w_x w) = s.
Lemma kept_stable F s : stable0 step fin (kept F s).
Proof.
  constructor.
  - intros w ev w' c (A & B & C) H. destruct (ready_idle cfg good w w' F) as (A' & B' & C'); auto; [|split; [exact A'|split; [exact B'|congruence]]].
    econstructor; [exact H|constructor].
  - intros w (A & B & C). split; [|auto]. destruct A as [W ID AS SA]. constructor; auto.
  - intros w j (A & B & C). unfold req. destruct (task_done w j) eqn:D; [split; auto|]. split; [|auto]. destruct A as [W ID AS SA]. constructor; cbn; auto.
    + intros m t Hm. destruct (Nat.eq_dec j m) as [->|NE]; [|rewrite nth_upd_other in Hm by congruence; exact (ID m t Hm)].
      destruct (nth_error (w_tasks w) m) as [tj|] eqn:N; [|rewrite nth_upd_none in Hm by exact N; congruence]. rewrite (nth_upd_same _ _ _ _ N) in Hm. injection Hm as <-. exact (ID m tj N).
    + intros m t Hm ON RK. destruct (Nat.eq_dec j m) as [->|NE]; [|rewrite nth_upd_other in Hm by congruence; exact (AS m t Hm ON RK)].
      destruct (nth_error (w_tasks w) m) as [tj|] eqn:N; [|rewrite nth_upd_none in Hm by exact N; congruence]. rewrite (nth_upd_same _ _ _ _ N) in Hm. injection Hm as <-. cbn. lia.
Qed.
Lemma kept_add F s l w : kept F s w -> kept F (s ++ l) (mk_world (w_tasks w) (add_sent l (w_x w)) (w_hist w)).
Proof. intros (A & B & <-). split; [now apply ready_add|]. split; [exact B|reflexivity]. Qed.

Lemma poll_kept n : forall w r w' F s, kept F s w -> poll_echo cfg n w r w' -> exists s', kept F s' w'.
Proof.
  induction n as [|n IH]; cbn [poll_echo]; intros w r w' F s KE H.
  - destruct H as [_ ->]. eauto.
  - apply b_inv in H as [(e & w1 & [_ ->] & H)|(e & [Q _] & _)]; [|discriminate].
    apply b_inv in H as [([] & w1 & [_ ->] & H)|(e' & [Q _] & _)]; [|discriminate]. pose proof (kept_add _ _ [SPoll e] _ KE) as K1. destruct e.
    + apply b_inv in H as [([] & w1 & H1 & H)|(e' & H1 & _)].
      * apply (k0_await_yield _ _ _ (kept_stable _ _) _ _ _ K1) in H1. exact (IH _ _ _ _ _ H1 H).
      * apply (k0_await_yield _ _ _ (kept_stable _ _) _ _ _ K1) in H1. eauto.
    + destruct H as [_ ->]. eauto.
Qed.
Lemma wait_kept w r w' F s : kept F s w -> wait_no_echo cfg w r w' -> exists s', kept F s' w'.
Proof.
  intros KE H. apply b_inv in H as [([] & w1 & H1 & H)|(e & H1 & _)].
  - destruct (c_log cfg); destruct H1 as [_ ->]; [pose proof (kept_add _ _ [SLogWait] _ KE) as K1|]; eapply poll_kept; eauto.
  - destruct (c_log cfg); destruct H1 as [Q _]; discriminate.
Qed.
Lemma send_spec txt ending ne tmo w r w' F : ready w -> remaining w F -> send cfg txt ending ne tmo w r w' -> ready w' /\ remaining w' F.
Proof.
  intros RD R H. assert (KE : kept F (p_sent (w_x w)) w) by (split; auto).
  apply b_inv in H as [([] & w1 & H1 & H)|(e & H1 & ->)].
  2:{ destruct ne; [|destruct H1 as [Q _]; discriminate]. destruct (wait_kept _ _ _ _ _ KE H1) as (s' & A & B & _). auto. }
  assert (K1 : exists s', kept F s' w1). { destruct ne; [eapply wait_kept; eauto|destruct H1 as [_ ->]; eauto]. }
  destruct K1 as (s1 & K1). clear KE RD R H1. destruct (send_data cfg txt ending) as [d|]; [|destruct H as [_ ->]; destruct K1 as (A & B & _); auto].
  apply b_inv in H as [([] & w2 & [_ ->] & H)|(e & [Q _] & _)]; [|discriminate]. apply (kept_add _ _ [SWrite d]) in K1.
  apply b_inv in H as [([] & w2 & H1 & H)|(e & H1 & ->)].
  2:{ destruct (c_log cfg); destruct H1 as [Q _]; discriminate. }
  assert (K2 : exists s', kept F s' w2).
  { destruct (c_log cfg); destruct H1 as [_ ->]; [|eauto]. eexists. eapply kept_add; eauto. }
  destruct K2 as (s2 & RD & R & _). clear K1 H1.
  destruct (reader_then KDrain RSome _ _ _ _ _ (fun _ => eq_refl) RD R I H) as (WK & RD' & _). split; [exact RD'|].
  pose proof (wk_out _ _ _ _ _ _ _ _ WK) as OC. destruct (task_out w' (List.length (w_tasks w2))); [|exact OC]. destruct OC as [(RF & _)|(Q & _)]; [exact RF|now destruct Q].
Qed.

Definition all_read (F : text) (w : world) (r : res text) (w' : world) : Prop :=
  match r with
  | Ok t => t = F /\ remaining w' [] /\ p_pending (w_x w') = [] /\ p_eof (w_x w') = true
  | Err e => remaining w' F /\ e <> EOFError
  end.
Lemma read_all_spec tmo w r w' F : ready w -> remaining w F -> read_all cfg tmo w r w' -> ready w' /\ p_sent (w_x w') = p_sent (w_x w) /\ all_read F w r w'.
Proof.
  intros RD R H. apply b_inv in H as [(eof & w1 & [Q ->] & H)|(e & [Q _] & _)]; [|discriminate]. injection Q as ->.
  assert (FIN : forall w1 r w', ready w1 -> remaining w1 F -> p_eof (w_x w1) = true -> read_pending w1 r w' -> ready w' /\ p_sent (w_x w') = p_sent (w_x w1) /\ all_read F w r w').
  { intros w1 r1 w1' RD1 R1 E H1. destruct (read_pending_spec _ _ _ _ RD1 R1 H1) as (A & B & C & D & t & F' & -> & T & EF & RF). split; [exact A|]. split; [exact B|].
    pose proof (at_eof _ _ _ RD1 R1 E) as P. rewrite P in T. subst t. assert (F' = []). { apply (f_equal (@List.length Z)) in EF. rewrite app_length in EF. destruct F'; [reflexivity|cbn in EF; lia]. }
    subst F'. split; [reflexivity|]. split; [exact RF|]. split; [exact C|]. congruence. }
  destruct (p_eof (w_x w)) eqn:E.
  - apply b_inv in H as [([] & w1 & [_ ->] & H)|(e & [Q _] & _)]; [|discriminate]. eapply FIN; eauto.
  - assert (H' : exists ru w1, bindM (new_reader RSome) (fun id => bindM (harvest_results step fin [AwCoro (KReadSome id)] (has_timeout cfg tmo)) (fun cr => bindM (check_results cr) (fun _ => ret tt))) w ru w1
      /\ ((ru = Ok tt /\ read_pending w1 r w') \/ exists e, ru = Err e /\ r = Err e /\ w' = w1)).
    { apply b_inv in H as [([] & w1 & H1 & H)|(e & H1 & ->)]; [exists (Ok tt), w1; auto|exists (Err e), w'; eauto 6]. }
    destruct H' as (ru & w1 & H1 & H2).
    destruct (reader_then KReadSome RSome _ _ _ _ _ (fun _ => eq_refl) RD R I H1) as (WK & RD' & RES).
    pose proof (wk_out _ _ _ _ _ _ _ _ WK) as OC. pose proof (wk_sent _ _ _ _ _ _ _ _ WK) as SE. set (i := List.length (w_tasks w)) in *.
    assert (RF : remaining w1 F).
    { destruct (task_out w1 i) as [o|]; [|exact OC]. destruct OC as [(RF & _)|(_ & EN)]; [exact RF|]. destruct o as [[a m|]|e|]; cbn in EN; try tauto; [destruct EN as (? & ? & _ & _ & Q & _); discriminate|].
      destruct e; try tauto. }
    destruct RES as [(-> & o & TO & NC & IE)|[(e & -> & TO & IE)|[(-> & _)|(e & -> & NE & _)]]].
    + destruct H2 as [(_ & H2)|(e & Q & _)]; [|discriminate]. rewrite TO in OC. specialize (NC I).
      assert (EE : p_eof (w_x w1) = true).
      { destruct OC as [(_ & [(_ & Q)|(Q & _)])|(_ & EN)]; [congruence|now destruct Q|]. destruct o as [[a m|]|e|]; cbn in EN; try tauto; [destruct EN as (? & ? & _ & _ & Q & _); discriminate|].
        destruct e; try tauto. }
      destruct (FIN _ _ _ RD' RF EE H2) as (A & B & C). split; [exact A|]. split; [congruence|exact C].
    + destruct H2 as [(Q & _)|(e' & Q & -> & ->)]; [discriminate|]. injection Q as <-. split; [exact RD'|]. split; [exact SE|]. split; [exact RF|].
      intros ->. rewrite TO in OC. destruct OC as [(_ & [(_ & Q)|(Q & _)])|(_ & EN)]; [discriminate|now destruct Q|]. cbn in EN. destruct EN as (_ & _ & _ & p & Q & _). discriminate.
    + destruct H2 as [(Q & _)|(e' & Q & -> & ->)]; [discriminate|]. injection Q as <-. split; [exact RD'|]. split; [exact SE|]. split; [exact RF|]. discriminate.
    + destruct H2 as [(Q & _)|(e' & Q & -> & ->)]; [discriminate|]. injection Q as <-. split; [exact RD'|]. split; [exact SE|]. split; [exact RF|]. destruct NE as [(-> & _)|[->| ->]]; discriminate.
Qed.

Definition command_result (q : pattern) (allow_eof : bool) (F : text) (w : world) (r : res text) (w' : world) : Prop :=
  match r with
  | Ok out => (exists m F', F = out ++ m ++ F' /\ remaining w' F' /\ q (out ++ m ++ p_pending (w_x w')) = Some (List.length out, (List.length out + List.length m)%nat))
              \/ (allow_eof = true /\ out = F /\ remaining w' [] /\ p_pending (w_x w') = [] /\ p_eof (w_x w') = true /\ (F = [] \/ q F = None))
  | Err CancelledError => remaining w' F \/ exists out m F', found_in_call w w' out m /\ F = out ++ m ++ F' /\ remaining w' F'
  | Err EOFError => remaining w' F /\ p_pending (w_x w') = F /\ p_eof (w_x w') = true /\ (p_eof (w_x w) = true \/ allow_eof = false /\ (F = [] \/ q F = None))
  | Err _ => remaining w' F
  end.

(** Tasks stay in the table. *)
Lemma grow_stable n : stable step fin (fun w : world => (n <= List.length (w_tasks w))%nat).
Proof.
  constructor.
  - intros w ev w' c L H. destruct ev as [j o|e]; cbn [env_step] in H.
    + destruct (nth_error (w_tasks w) j) as [t|]; [|discriminate]. destruct (t_out t); [discriminate|]. destruct (fin (w_x w) t o); [|discriminate]. injection H as <- _. cbn. now rewrite length_upd.
    + destruct (step (w_x w) e) as [[x' c']|]; [|discriminate]. injection H as <- _. exact L.
  - intros w L. exact L.
  - intros w i L. unfold req. destruct (task_done w i); [exact L|]. cbn. now rewrite length_upd.
  - intros w k L. cbn. rewrite app_length. lia.
Qed.
Lemma k_modx (P : world -> Prop) f : (forall w : world, P w -> P (mk_world (w_tasks w) (f (w_x w)) (w_hist w))) -> keeps P (modx (K := rkind) (V := rval) f).
Proof. intros H w r w' PW [_ ->]. now apply H. Qed.
Lemma send_tasks txt ending ne tmo w r w' : send cfg txt ending ne tmo w r w' -> (List.length (w_tasks w) <= List.length (w_tasks w'))%nat.
Proof.
  intros H. pose proof (grow_stable (List.length (w_tasks w))) as ST.
  assert (KM : forall f, keeps (fun u : world => (List.length (w_tasks w) <= List.length (w_tasks u))%nat) (modx (K := rkind) (V := rval) f)) by (intros f; apply k_modx; auto).
  refine ((_ : keeps (fun u : world => (List.length (w_tasks w) <= List.length (w_tasks u))%nat) (send cfg txt ending ne tmo)) w r w' (Nat.le_refl _) H). clear H.
  apply k_bind.
  - destruct ne; [|apply k_ret]. apply k_bind; [destruct (c_log cfg); [apply KM|apply k_ret]|]. intros _. generalize (4 * 30)%nat. induction n as [|n IH]; cbn [poll_echo]; [apply k_raise|].
    apply k_bind; [apply k_getx|]. intros e. apply k_bind; [apply KM|]. intros _. destruct e; [|apply k_ret]. apply k_bind; [now apply k_await_yield|]. intros _. exact IH.
  - intros _. destruct (send_data cfg txt ending); [|apply k_raise]. apply k_bind; [apply KM|]. intros _. apply k_bind; [destruct (c_log cfg); [apply KM|apply k_ret]|]. intros _.
    apply k_bind; [apply k_bind; [apply k_getx|]; intros id; apply k_bind; [apply KM|]; intros _; apply k_ret|]. intros id.
    apply k_bind; [now apply k_harvest_results|]. intros cr. apply k_bind; [|intros _; apply k_ret].
    unfold check_results. destruct (fst cr); [apply k_raise|]. destruct (snd cr) as [|[v|e|] [|]]; try apply k_raise; try apply k_ret. destruct (is_Exception e); [apply k_raise|apply k_ret].
Qed.
Lemma poll_errors n : forall w e w', poll_echo cfg n w (Err e) w' -> e <> EOFError.
Proof.
  induction n as [|n IH]; cbn [poll_echo]; intros w e w' H.
  - destruct H as [Q _]. injection Q as ->. discriminate.
  - apply b_inv in H as [(b & w1 & _ & H)|(e1 & [Q _] & _)]; [|discriminate]. apply b_inv in H as [([] & w2 & _ & H)|(e1 & [Q _] & _)]; [|discriminate]. destruct b; [|destruct H as [Q _]; discriminate].
    apply b_inv in H as [([] & w3 & _ & H)|(e1 & (evs & s & _ & Q) & Q')]; [now apply IH in H|]. injection Q' as ->. destruct (s_canc s); [|discriminate]. injection Q as ->. discriminate.
Qed.
Lemma send_errors txt ending ne tmo w r w' F : ready w -> remaining w F -> send cfg txt ending ne tmo w r w' -> r <> Err EOFError.
Proof.
  intros RD R H. assert (KE : kept F (p_sent (w_x w)) w) by (split; auto).
  apply b_inv in H as [([] & w1 & H1 & H)|(e & H1 & ->)].
  2:{ destruct ne; [|destruct H1 as [Q _]; discriminate]. apply b_inv in H1 as [([] & w1 & _ & H1)|(e' & H1 & _)]; [|destruct (c_log cfg); destruct H1 as [Q _]; discriminate].
      apply poll_errors in H1. congruence. }
  assert (K1 : exists s', kept F s' w1). { destruct ne; [eapply wait_kept; eauto|destruct H1 as [_ ->]; eauto]. }
  destruct K1 as (s1 & K1). clear KE RD R H1. destruct (send_data cfg txt ending) as [d|]; [|destruct H as [-> _]; discriminate].
  apply b_inv in H as [([] & w2 & [_ ->] & H)|(e & [Q _] & _)]; [|discriminate]. apply (kept_add _ _ [SWrite d]) in K1.
  apply b_inv in H as [([] & w2 & H1 & H)|(e & H1 & ->)].
  2:{ destruct (c_log cfg); destruct H1 as [Q _]; discriminate. }
  assert (K2 : exists s', kept F s' w2).
  { destruct (c_log cfg); destruct H1 as [_ ->]; [|eauto]. eexists. eapply kept_add; eauto. }
  destruct K2 as (s2 & RD & R & _). clear K1 H1.
  destruct (reader_then KDrain RSome _ _ _ _ _ (fun _ => eq_refl) RD R I H) as (WK & RD' & RES).
  pose proof (wk_out _ _ _ _ _ _ _ _ WK) as OC. destruct RES as [(-> & _)|[(e & -> & TO & IE)|[(-> & _)|(e & -> & NE & _)]]]; try discriminate.
  - intros Q. injection Q as ->. rewrite TO in OC. destruct OC as [(_ & [(Q & _)|(_ & _ & Q)])|(Q & _)]; [now destruct Q| |now destruct Q]. specialize (Q EOFError eq_refl). discriminate.
  - destruct NE as [(-> & _)|[->| ->]]; discriminate.
Qed.

Lemma command_spec txt ending ne p tmo allow w r w' F q : ready w -> remaining w F -> used_pattern cfg p = Some q -> sane q ->
  command cfg txt ending ne p tmo allow w r w' -> ready w' /\ command_result q allow F w r w'.
Proof.
  intros RD R U SQ H. apply b_inv in H as [(eof & w1 & [Q ->] & H)|(e & [Q _] & _)]; [|discriminate]. injection Q as ->.
  destruct (p_eof (w_x w)) eqn:E.
  { destruct H as [-> ->]. split; [exact RD|]. cbn. split; [exact R|]. split; [exact (at_eof _ _ _ RD R E)|]. auto. }
  apply b_inv in H as [([] & w1 & H1 & H)|(e & H1 & ->)].
  2:{ destruct (send_spec _ _ _ _ _ _ _ _ RD R H1) as (A & B). split; [exact A|]. pose proof (send_errors _ _ _ _ _ _ _ _ RD R H1). cbn. destruct e; auto. congruence. }
  destruct (send_spec _ _ _ _ _ _ _ _ RD R H1) as (RD1 & R1). pose proof (send_tasks _ _ _ _ _ _ _ H1) as LEN.
  assert (H' : exists ro w2, expect cfg p tmo w1 ro w2 /\
    match ro with Ok om => r = Ok (fst om) /\ w' = w2 | Err EOFError => (if allow then read_pending else raise EOFError) w2 r w' | Err e => r = Err e /\ w' = w2 end).
  { assert (G : forall ro w2, bindM (expect cfg p tmo) (fun om => ret (fst om)) w1 ro w2 -> exists ro', expect cfg p tmo w1 ro' w2 /\ ro = match ro' with Ok om => Ok (fst om) | Err e => Err e end).
    { intros ro w2 H2. apply b_inv in H2 as [(om & w3 & H2 & [-> ->])|(e & H2 & ->)]; eexists; split; eauto. }
    destruct H as [(a & H & ->)|(e & w2 & H & K1)].
    - destruct (G _ _ H) as (ro & H2 & Q). exists ro, w'. split; [exact H2|]. destruct ro; [|discriminate]. auto.
    - destruct (G _ _ H) as (ro & H2 & Q). destruct ro as [om|e']; [discriminate|]. injection Q as <-. exists (Err e), w2. split; [exact H2|]. destruct e; exact K1. }
  destruct H' as (ro & w2 & H2 & K2). destruct (expect_spec cfg good _ _ _ _ _ _ _ RD1 R1 U SQ H2) as (RD2 & _ & RES).
  destruct ro as [[out m]|e].
  - destruct K2 as [-> ->]. split; [exact RD2|]. left. cbn in RES. destruct RES as (F' & A & B & C). exists m, F'. auto.
  - assert (FC : forall o m, found_in_call w1 w2 o m -> found_in_call w w2 o m). { intros o m (i & L & TO). exists i. split; [lia|exact TO]. }
    destruct e; cbn in RES; try (destruct K2 as [-> ->]; split; [exact RD2|]; cbn; tauto).
    2:{ destruct K2 as [-> ->]. split; [exact RD2|]. cbn. destruct RES as [RES|(o & m & F' & A & B)]; [now left|right]. exists o, m, F'. auto. }
    destruct RES as (RF & EE & P & NP). destruct allow.
    + destruct (read_pending_spec _ _ _ _ RD2 RF K2) as (A & B & C & D & t & F' & -> & T & EF & RF'). split; [exact A|]. right.
      rewrite P in T. subst t. assert (F' = []). { apply (f_equal (@List.length Z)) in EF. rewrite app_length in EF. destruct F'; [reflexivity|cbn in EF; lia]. }
      subst F'. split; [reflexivity|]. split; [reflexivity|]. split; [exact RF'|]. split; [exact C|]. split; [congruence|exact NP].
    + destruct K2 as [-> ->]. split; [exact RD2|]. cbn. split; [exact RF|]. split; [exact P|]. split; [exact EE|]. right. auto.
Qed.

(** ** Sessions *)
Lemma close_inv w r w' : close cfg w r w' -> r = Ok tt /\ exists l, w' = mk_world (w_tasks w) (add_sent l (w_x w)) (w_hist w).
Proof. unfold close. destruct (c_pty_eof cfg) as [[|b e]|]; intros [-> ->]; eauto. Qed.
Lemma op_spec o w r w' F : ready w -> remaining w F -> sane_op o -> run_op cfg o w r w' ->
  ready w' /\ ((r = Err CancelledError /\ exists out m F', found_in_call w w' out m /\ F = out ++ m ++ F' /\ remaining w' F') \/ exists t F', handed_out cfg o r t /\ F = t ++ F' /\ remaining w' F').
Proof.
  intros RD R SO H.
  assert (SQ : forall q, used_pattern cfg (op_pattern o) = Some q -> sane q).
  { unfold used_pattern. intros q U. destruct (op_pattern o) eqn:OP; [injection U as <-; now apply SO|]. now apply (proj2 good). }
  destruct o as [p tmo|tmo| |txt ending ne tmo|txt ending ne p tmo allow|]; cbn [run_op op_pattern] in *.
  - assert (NU : forall ro w1, expect cfg p tmo w ro w1 -> used_pattern cfg p = None -> w1 = w /\ exists m, ro = Err (TypeError m)).
    { unfold expect, used_pattern. intros ro w1 H1 U. rewrite U in H1. destruct H1 as [-> ->]. eauto. }
    apply b_inv in H as [([out m] & w1 & H1 & [-> ->])|(e & H1 & ->)].
    + destruct (used_pattern cfg p) as [q|] eqn:U; [|destruct (NU _ _ H1 eq_refl) as (_ & m' & Q); discriminate].
      destruct (expect_spec cfg good _ _ _ _ _ _ _ RD R U (SQ _ eq_refl) H1) as (A & _ & F' & B & C & _). split; [exact A|]. right. exists (out ++ m), F'. cbn. rewrite <- app_assoc. auto.
    + destruct (used_pattern cfg p) as [q|] eqn:U.
      * destruct (expect_spec cfg good _ _ _ _ _ _ _ RD R U (SQ _ eq_refl) H1) as (A & _ & RES). split; [exact A|]. cbn in RES.
        assert (G : remaining w' F \/ e = CancelledError /\ exists out m F', found_in_call w w' out m /\ F = out ++ m ++ F' /\ remaining w' F') by (destruct e; tauto). destruct G as [G|(-> & G)]; [right; exists [], F; cbn; auto|left; auto].
      * destruct (NU _ _ H1 eq_refl) as (-> & m & Q). split; [exact RD|]. right. exists [], F. cbn. auto.
  - apply b_inv in H as [(t & w1 & H1 & [-> ->])|(e & H1 & ->)]; destruct (read_all_spec _ _ _ _ _ RD R H1) as (A & _ & B).
    + destruct B as (-> & B & _). split; [exact A|]. right. exists F, []. cbn. rewrite app_nil_r. auto.
    + destruct B as (B & _). split; [exact A|]. right. exists [], F. cbn. auto.
  - apply b_inv in H as [(t & w1 & H1 & [-> ->])|(e & H1 & ->)]; destruct (read_pending_spec _ _ _ _ RD R H1) as (A & _ & _ & _ & t' & F' & Q & _ & B & C); [|discriminate].
    injection Q as <-. split; [exact A|]. right. exists t, F'. cbn. auto.
  - apply b_inv in H as [(t & w1 & H1 & [-> ->])|(e & H1 & ->)]; destruct (send_spec _ _ _ _ _ _ _ _ RD R H1) as (A & B); (split; [exact A|]; right; exists [], F; cbn; auto).
  - destruct (used_pattern cfg p) as [q|] eqn:U.
    + apply b_inv in H as [(t & w1 & H1 & [-> ->])|(e & H1 & ->)]; destruct (command_spec _ _ _ _ _ _ _ _ _ _ _ RD R U (SQ _ eq_refl) H1) as (A & B); (split; [exact A|]); cbn in B.
      * right. destruct B as [(m & F' & B & C & D)|(-> & -> & B & _)].
        -- exists (t ++ m), F'. rewrite <- app_assoc. split; [|auto]. cbn. right. exists q, m. split; [exact U|]. split; [|reflexivity]. now exists (p_pending (w_x w1)).
        -- exists F, []. rewrite app_nil_r. cbn. auto.
      * assert (G : remaining w' F \/ e = CancelledError /\ exists out m F', found_in_call w w' out m /\ F = out ++ m ++ F' /\ remaining w' F') by (destruct e; tauto). destruct G as [G|(-> & G)]; [right; exists [], F; cbn; auto|left; auto].
    + assert (OPEN : forall ro w1, command cfg txt ending ne p tmo allow w ro w1 -> (w1 = w /\ ro = Err EOFError)
         \/ bindM (send cfg (inr txt) ending ne tmo) (fun _ => tryM (bindM (expect cfg p tmo) (fun om => ret (fst om))) (fun e => match e with EOFError => Some (if allow then read_pending else raise EOFError) | _ => None end)) w ro w1).
      { intros ro w1 H1. apply b_inv in H1 as [(eof & w2 & [Q ->] & H1)|(e1 & [Q _] & _)]; [|discriminate]. injection Q as ->. destruct (p_eof (w_x w)); [left; destruct H1; auto|now right]. }
      apply b_inv in H as [(t & w1 & H1 & [-> ->])|(e & H1 & ->)]; apply OPEN in H1 as [(-> & Q)|H1]; try discriminate; try (split; [exact RD|]; right; exists [], F; cbn; now auto).
      * exfalso. apply b_inv in H1 as [([] & w2 & H2 & H1)|(e & _ & Q)]; [|discriminate].
        destruct H1 as [(a & H1 & Q)|(e & w3 & H1 & K1)].
        -- apply b_inv in H1 as [(om & w3 & H1 & _)|(e & _ & Q')]; [|discriminate]. unfold expect in H1. unfold used_pattern in U. rewrite U in H1. destruct H1 as [Q' _]. discriminate.
        -- apply b_inv in H1 as [(om & w4 & H1 & [Q' _])|(e' & H1 & Q')]; [discriminate|]. injection Q' as <-. unfold expect in H1. unfold used_pattern in U. rewrite U in H1. destruct H1 as [Q' _]. injection Q' as ->.
           destruct K1 as [Q' _]. discriminate.
      * apply b_inv in H1 as [([] & w2 & H2 & H1)|(e1 & H2 & Q)]; destruct (send_spec _ _ _ _ _ _ _ _ RD R H2) as (A & B).
        -- assert (w' = w2).
           { destruct H1 as [(a & H1 & Q)|(e1 & w3 & H1 & K1)]; [discriminate|].
             apply b_inv in H1 as [(om & w4 & H1 & [Q' _])|(e' & H1 & Q')]; [discriminate|]. injection Q' as <-. unfold expect in H1. unfold used_pattern in U. rewrite U in H1. destruct H1 as [Q' ->]. injection Q' as ->.
             destruct K1 as [_ ->]. reflexivity. }
           subst w2. split; [exact A|]. right. exists [], F. cbn. auto.
        -- split; [exact A|]. right. exists [], F. cbn. auto.
  - apply b_inv in H as [(t & w1 & H1 & [-> ->])|(e & H1 & ->)]; apply close_inv in H1 as (Q & l & ->); [|discriminate]. split; [now apply ready_add|]. right. exists [], F. cbn. auto.
Qed.
End S.
