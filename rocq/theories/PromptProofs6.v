(** Sessions; what is written and logged; exact strings. *)
From Verif Require Import PromptSpec Utf8Spec AsyncSpec AsyncProofs HarvestSpec HarvestProofs HarvestProofs2 AsyncInv AsyncInv2 RegexProofs PromptProofs PromptProofs2 PromptProofs3 PromptProofs4 PromptProofs5.
Open Scope Z_scope.

Section S.
Context (cfg : settings) (good : good_settings cfg).
Notation step := (pstep cfg). Notation fin := (pfinish cfg).
Notation rem := (PromptProofs.rem cfg). Notation wf := (PromptProofs.wf cfg). Notation remaining := (PromptSpec.remaining cfg). Notation ready := (PromptProofs2.ready cfg). Notation ended := (PromptProofs.ended cfg). Notation unread := (PromptProofs2.unread cfg). Notation outcome := (PromptProofs2.outcome cfg). Notation working := (PromptProofs2.working cfg). Notation expect_result := (PromptProofs4.expect_result cfg). Notation all_read := (PromptProofs5.all_read cfg). Notation command_result := (PromptProofs5.command_result cfg).

Lemma ready_start n src echo : ready (prompt_world n src echo).
Proof.
  constructor; cbn.
  - split; discriminate.
  - intros j t H. destruct j; discriminate.
  - intros j t H. destruct j; discriminate.
  - discriminate.
Qed.

(** ** Writing *)
Lemma round_sent r x x' o : round cfg r x = Some (x', o) -> p_sent x' = p_sent x.
Proof.
  assert (RC : forall x1 od, read_chunk cfg x = Some (x1, od) -> p_sent x1 = p_sent x).
  { intros x1 od. unfold read_chunk. assert (G : forall chunk, match idec_decode (c_codec cfg) (c_errors cfg) (p_dec x) chunk (match chunk with [] => true | _ => false end) with
      | None => Some (mk_px (p_pending x) (match chunk with [] => true | _ => false end) (p_dec x) (skipn (c_chunk cfg) (p_buf x)) (p_src x) (p_feof x) (p_active x) (p_next x) (p_drain x) (p_echo x) (p_sent x), None)
      | Some (data, dec) => Some (mk_px (p_pending x) (match chunk with [] => true | _ => false end) dec (skipn (c_chunk cfg) (p_buf x)) (p_src x) (p_feof x) (p_active x) (p_next x) (p_drain x) (p_echo x) (p_sent x), Some data)
      end = Some (x1, od) -> p_sent x1 = p_sent x).
    { intros chunk. destruct (idec_decode (c_codec cfg) (c_errors cfg) _ _ _) as [[? ?]|]; intros Q; injection Q as <- <-; reflexivity. }
    destruct (p_buf x), (p_feof x); try discriminate; apply G. }
  destruct r as [p|]; cbn [round]; [unfold pattern_round|unfold some_round]; destruct (read_chunk cfg x) as [[x1 od]|]; try discriminate; specialize (RC _ _ eq_refl).
  - destruct od as [data|]; [|intros Q; injection Q as <- <-; exact RC].
    assert (G : match search_pending p (set_pending (p_pending x1 ++ data) x1) with
                | Some (x3, (o, m)) => Some (x3, Some (TValue (VMatch o m)))
                | None => Some (set_pending (p_pending x1 ++ data) x1, if p_eof x1 then Some (TFail EOFError) else None) end = Some (x', o) -> p_sent x' = p_sent x).
    { unfold search_pending. cbn [p_pending set_pending]. destruct (p (p_pending x1 ++ data)) as [[? ?]|]; intros Q; injection Q as <- <-; exact RC. }
    destruct data, (p_eof x1); try exact G. intros Q. injection Q as <- <-. exact RC.
  - destruct od as [data|]; intros Q; injection Q as <- <-; exact RC.
Qed.
Lemma sent_stable s : stable step fin (fun w : world => p_sent (w_x w) = s).
Proof.
  constructor.
  - intros w ev w' c S H. destruct ev as [j o|e]; cbn [env_step] in H.
    + destruct (nth_error (w_tasks w) j) as [t|]; [|discriminate]. destruct (t_out t); [discriminate|]. destruct (fin (w_x w) t o) as [x'|] eqn:FI; [|discriminate]. injection H as <- _. cbn.
      apply finish_cases in FI as [(_ & _ & ->)|[(_ & _ & _ & r & x1 & _ & _ & R & ->)|(_ & _ & _ & _ & [(_ & ->)| ->])]]; auto.
      * unfold deactivate. destruct (is_active _ _); exact S.
      * apply round_sent in R. cbn. congruence.
      * unfold deactivate. destruct (is_active _ _); exact S.
    + destruct (step (w_x w) e) as [[x' c']|] eqn:ST; [|discriminate]. injection H as <- _. cbn.
      apply step_cases in ST as [(_ & _ & _ & _ & Q & _)|[(id & r & _ & _ & R)|[(id & _ & _ & ->)|(id & x1 & o & _ & _ & R & ->)]]].
      * congruence.
      * apply round_sent in R. congruence.
      * exact S.
      * apply round_sent in R. cbn. congruence.
  - intros w S. exact S.
  - intros w i S. unfold req. destruct (task_done w i); exact S.
  - intros w k S. exact S.
Qed.

Lemma poll_sent n : forall w r w', poll_echo cfg n w r w' ->
  (exists k, (k <= n)%nat /\ p_sent (w_x w') = p_sent (w_x w) ++ repeat (SPoll true) k
             /\ (r = Err CancelledError \/ k = n /\ r = Err (RuntimeError "Timed out: Terminal echo mode remains enabled.")))
  \/ (exists k, (k < n)%nat /\ p_sent (w_x w') = p_sent (w_x w) ++ repeat (SPoll true) k ++ [SPoll false] /\ r = Ok tt /\ echo_on (w_x w') = false).
Proof.
  induction n as [|n IH]; cbn [poll_echo]; intros w r w' H.
  - destruct H as [-> ->]. left. exists 0%nat. rewrite app_nil_r. auto.
  - apply b_inv in H as [(e & w1 & [Q ->] & H)|(e1 & [Q _] & _)]; [|discriminate]. injection Q as ->. apply b_inv in H as [([] & w2 & [_ ->] & H)|(e1 & [Q _] & _)]; [|discriminate].
    destruct (echo_on (w_x w)) eqn:EO.
    + apply b_inv in H as [([] & w2 & H1 & H)|(e1 & H1 & ->)].
      * apply (k_await_yield _ _ _ (sent_stable _) _ _ _ eq_refl) in H1. cbn in H1. apply IH in H as [(k & L & SS & R)|(k & L & SS & R & E)]; rewrite H1, <- app_assoc in SS; [left|right]; exists (S k); cbn.
        -- split; [lia|]. split; [exact SS|]. destruct R as [R|(-> & R)]; auto.
        -- split; [lia|]. split; [exact SS|]. auto.
      * pose proof H1 as H2. apply (k_await_yield _ _ _ (sent_stable _) _ _ _ eq_refl) in H2. cbn in H2. destruct H1 as (evs & s & _ & Q). destruct (s_canc s); [|discriminate].
        left. exists 1%nat. cbn. split; [lia|]. split; [exact H2|]. left. congruence.
    + destruct H as [-> ->]. right. exists 0%nat. cbn. split; [lia|]. auto.
Qed.
Lemma wait_sent w r w' : wait_no_echo cfg w r w' -> let l := if c_log cfg then [SLogWait] else [] in
  (exists k, (k <= 120)%nat /\ p_sent (w_x w') = p_sent (w_x w) ++ l ++ repeat (SPoll true) k
             /\ (r = Err CancelledError \/ k = 120%nat /\ r = Err (RuntimeError "Timed out: Terminal echo mode remains enabled.")))
  \/ (exists k, (k < 120)%nat /\ p_sent (w_x w') = p_sent (w_x w) ++ l ++ repeat (SPoll true) k ++ [SPoll false] /\ r = Ok tt /\ echo_on (w_x w') = false).
Proof.
  intros H l. apply b_inv in H as [([] & w1 & H1 & H)|(e & H1 & _)].
  - assert (Q : p_sent (w_x w1) = p_sent (w_x w) ++ l) by (unfold l; destruct (c_log cfg); destruct H1 as [_ ->]; cbn; [reflexivity|now rewrite app_nil_r]).
    apply poll_sent in H. change (4 * 30)%nat with 120%nat in H. rewrite Q in H. setoid_rewrite <- app_assoc in H. exact H.
  - destruct (c_log cfg); destruct H1 as [Q _]; discriminate.
Qed.
Lemma drain_sent tmo w ru w' : bindM (new_reader RSome) (fun id => bindM (harvest_results step fin [AwCoro (KDrain id)] tmo) (fun cr => bindM (check_results cr) (fun _ => ret tt))) w ru w' ->
  p_sent (w_x w') = p_sent (w_x w).
Proof.
  intros H. pose proof (sent_stable (p_sent (w_x w))) as ST.
  refine ((_ : keeps (fun u : world => p_sent (w_x u) = p_sent (w_x w)) (bindM (new_reader RSome) (fun id => bindM (harvest_results step fin [AwCoro (KDrain id)] tmo) (fun cr => bindM (check_results cr) (fun _ => ret tt))))) w ru w' eq_refl H).
  apply k_bind; [apply k_bind; [apply k_getx|]; intros id; apply k_bind; [apply k_modx; auto|]; intros _; apply k_ret|]. intros id.
  apply k_bind; [now apply k_harvest_results|]. intros cr. apply k_bind; [|intros _; apply k_ret].
  unfold check_results. destruct (fst cr); [apply k_raise|]. destruct (snd cr) as [|[v|e|] [|]]; try apply k_raise; try apply k_ret. destruct (is_Exception e); [apply k_raise|apply k_ret].
Qed.
(** What send() does to the input and the log. *)
Lemma send_sent txt ending ne tmo w r w' : send cfg txt ending ne tmo w r w' ->
  exists pre post, p_sent (w_x w') = p_sent (w_x w) ++ pre ++ post
  /\ ((ne = false /\ pre = [])
      \/ ne = true /\ exists k, (k <= 120)%nat /\ ((pre = (if c_log cfg then [SLogWait] else []) ++ repeat (SPoll true) k /\ post = [] /\ (r = Err CancelledError \/ k = 120%nat /\ r = Err (RuntimeError "Timed out: Terminal echo mode remains enabled.")))
          \/ (k < 120)%nat /\ pre = (if c_log cfg then [SLogWait] else []) ++ repeat (SPoll true) k ++ [SPoll false]))
  /\ (post = [] /\ (exists e, r = Err e)
      \/ exists d, send_data cfg txt ending = Some d /\ post = SWrite d :: (if c_log cfg then [if ne then SLogHidden else SLogData (List.length d)
                         (if (log_limit <? List.length d)%nat then firstn (log_limit - log_limit_end) d ++ skipn (List.length d - log_limit_end) d else d)] else [])).
Proof.
  intros H. apply b_inv in H as [([] & w1 & H1 & H)|(e & H1 & ->)].
  - set (l := if c_log cfg then [SLogWait] else []) in *.
    assert (PRE : exists pre, p_sent (w_x w1) = p_sent (w_x w) ++ pre /\ ((ne = false /\ pre = []) \/ (ne = true /\ exists k, (k < 120)%nat /\ pre = l ++ repeat (SPoll true) k ++ [SPoll false]))).
    { destruct ne; [|destruct H1 as [_ ->]; exists []; rewrite app_nil_r; auto].
      apply wait_sent in H1 as [(k & L & _ & [Q|(_ & Q)])|(k & L & S & _)]; try discriminate. eexists. split; [exact S|]. right. split; [reflexivity|]. eauto. }
    destruct PRE as (pre & S1 & PRE). exists pre.
    assert (POST : exists post, p_sent (w_x w') = p_sent (w_x w1) ++ post /\ (post = [] /\ (exists e, r = Err e)
      \/ exists d, send_data cfg txt ending = Some d /\ post = SWrite d :: (if c_log cfg then [if ne then SLogHidden else SLogData (List.length d)
                         (if (log_limit <? List.length d)%nat then firstn (log_limit - log_limit_end) d ++ skipn (List.length d - log_limit_end) d else d)] else []))).
    { destruct (send_data cfg txt ending) as [d|]; [|destruct H as [-> ->]; exists []; rewrite app_nil_r; split; [reflexivity|]; left; eauto].
      apply b_inv in H as [([] & w2 & [_ ->] & H)|(e & [Q _] & _)]; [|discriminate].
      apply b_inv in H as [([] & w2 & H2 & H)|(e & H2 & _)]; [|destruct (c_log cfg); destruct H2 as [Q _]; discriminate].
      apply drain_sent in H. eexists. split; [|right; exists d; split; [reflexivity|]; reflexivity]. rewrite H.
      destruct (c_log cfg); destruct H2 as [_ ->]; cbn; [now rewrite <- app_assoc|reflexivity]. }
    destruct POST as (post & S2 & POST). exists post. rewrite S2, S1, app_assoc. split; [reflexivity|]. split; [|exact POST].
    destruct PRE as [PRE|(-> & k & L & PRE)]; [now left|right]. split; [reflexivity|]. exists k. split; [lia|]. right. auto.
  - destruct ne; [|destruct H1 as [Q _]; discriminate]. apply wait_sent in H1 as [(k & L & S & R)|(k & _ & _ & Q & _)]; [|discriminate].
    eexists. exists []. rewrite app_nil_r. split; [exact S|]. split; [right; split; [reflexivity|]; exists k; split; [exact L|]; left; auto|]. left. eauto.
Qed.

(** ** Sessions *)
Lemma session_ready w tr w' : session cfg w tr w' -> (forall x, In x tr -> sane_op (fst x)) -> forall F, ready w -> remaining w F -> ready w' /\ exists F', remaining w' F'.
Proof.
  induction 1 as [w w1 ID|w w1 o r w2 tr w' ID H _ IH]; intros SO F RD R; destruct (ready_idle cfg good _ _ _ ID RD R) as (RD1 & R1 & _).
  - eauto.
  - assert (SO1 := SO _ (or_introl eq_refl)). destruct (op_spec cfg good _ _ _ _ _ RD1 R1 SO1 H) as (RD2 & [(_ & out & m & F' & _ & _ & R2)|(t & F2 & _ & _ & R2)]); eapply IH; eauto; intros x I; apply SO; now right.
Qed.
Lemma clean_spec w tr w' : clean_session cfg w tr w' -> (forall x, In x tr -> sane_op (fst x)) -> forall F, ready w -> remaining w F ->
  ready w' /\ exists ts F', Forall2 (fun x t => handed_out cfg (fst x) (snd x) t) tr ts /\ F = List.concat ts ++ F' /\ remaining w' F'.
Proof.
  induction 1 as [w w1 ID|w w1 o r w2 tr w' ID H NF _ IH]; intros SO F RD R; destruct (ready_idle cfg good _ _ _ ID RD R) as (RD1 & R1 & _).
  - split; [exact RD1|]. exists [], F. cbn. auto.
  - assert (SO1 := SO _ (or_introl eq_refl)). destruct (op_spec cfg good _ _ _ _ _ RD1 R1 SO1 H) as (RD2 & [(Q & out & m & F' & FC & _)|(t & F2 & HO & -> & R2)]); [destruct NF; eauto|].
    destruct (IH (fun x I => SO x (or_intror I)) _ RD2 R2) as (RD' & ts & F' & HT & -> & R'). split; [exact RD'|]. exists (t :: ts), F'. split; [constructor; assumption|]. cbn. rewrite <- app_assoc. auto.
Qed.
End S.
Lemma in_use_ready cfg w : in_use cfg w -> good_settings cfg /\ ready cfg w /\ exists F, remaining cfg w F.
Proof.
  intros (n & src & echo & tr & F & G & S & R & SO). split; [exact G|]. exact (session_ready cfg G _ _ _ S SO F (ready_start _ _ _ _) R).
Qed.

(** ** Exact strings *)
Lemma occurs_prefix s a b n : occurs_at s (a ++ b) n -> (n + List.length s <= List.length a)%nat -> occurs_at s a n.
Proof.
  intros (u & v & E & L) LE. subst n. exists u. assert (Q : a = firstn (List.length a) (u ++ s ++ v)) by (rewrite <- E, firstn_app, Nat.sub_diag; cbn; now rewrite app_nil_r, firstn_all).
  exists (firstn (List.length a - List.length u - List.length s) v). split; [|reflexivity].
  rewrite Q at 1. rewrite firstn_app. rewrite (firstn_all2 u) by lia. f_equal. rewrite firstn_app. rewrite (firstn_all2 s) by lia. reflexivity.
Qed.
Lemma occurs_more s a b n : occurs_at s a n -> occurs_at s (a ++ b) n.
Proof. intros (u & v & -> & <-). exists u, (v ++ b). split; [now rewrite <- !app_assoc|reflexivity]. Qed.
(** Two occurrences, one covering the other: one string inside the other. *)
Lemma covers s s' t n k : occurs_at s t n -> occurs_at s' t k -> (k <= n)%nat -> (n + List.length s <= k + List.length s')%nat -> exists a b, s' = a ++ s ++ b.
Proof.
  intros (u & v & E & L) (u' & v' & E' & L') L1 L2. subst k.
  assert (E2 : skipn (List.length u') t = s' ++ v') by (rewrite E', skipn_app, skipn_all, Nat.sub_diag; reflexivity).
  assert (E3 : skipn (List.length u') t = skipn (List.length u') u ++ s ++ v).
  { rewrite E, skipn_app. replace (List.length u' - List.length u)%nat with 0%nat by lia. reflexivity. }
  set (c := skipn (List.length u') u) in *. assert (LC : List.length c = (n - List.length u')%nat) by (unfold c; rewrite skipn_length; lia).
  exists c, (firstn (List.length s' - List.length c - List.length s) v).
  assert (Q : s' = firstn (List.length s') (s' ++ v')) by (rewrite firstn_app, Nat.sub_diag; cbn; now rewrite app_nil_r, firstn_all).
  rewrite Q at 1. rewrite <- E2, E3, firstn_app, (firstn_all2 c) by lia. f_equal. rewrite firstn_app, (firstn_all2 s) by lia. reflexivity.
Qed.
