(** Termination of the event loop while the processes do nothing, and its idle
    states (C113-C116). *)
From Verif Require Export FlowProofs4.
From Coq Require Import Lia.
Open Scope Z_scope.

(** ** Measures *)
Definition m_pc (c : wpc) : nat := match c with WDrain => 20 | WHelper => 19 | WWait => 18 | WWoken _ => 17 | WNext => 10 | WClosed | WFailed => 0 end.
Fixpoint m_src (l : list bytes) : nat := match l with [] => 0 | b :: l => 50 + 8 * List.length b + m_src l end.
Fixpoint m_wq (q : list wcb) : nat := match q with [] => 0 | CbTLost _ :: q => 3 + m_wq q | CbPLost _ :: q => 1 + m_wq q end.
Definition m_w (w : writer) : nat := m_src (src w) + 8 * List.length (wb w) + (if sel_peer w then 10 else 0) + (if closing w then 0 else 10) + m_wq (wq w) + m_pc (pc w).
Lemma m_wq_app a b : (m_wq (a ++ b) = m_wq a + m_wq b)%nat.
Proof. induction a as [|[] a IH]; cbn; lia. Qed.
Lemma ne_length {A} (l : list A) : l <> [] -> (0 < List.length l)%nat.
Proof. destruct l; cbn; [congruence|lia]. Qed.
Ltac msr := unfold m_w in *; pr; rewrite ?m_wq_app, ?app_length, ?skipn_length in *; cbn [m_wq m_pc m_src List.length] in *.
Ltac bools := repeat match goal with |- context[if ?b then _ else _] => destruct b eqn:? end.
Lemma m_pause w : m_w (maybe_pause w) = m_w w.
Proof. unfold maybe_pause. destruct (_ <? _); reflexivity. Qed.
Lemma m_wake e w : (m_w (wake e w) <= m_w w)%nat.
Proof. unfold wake. destruct (pc w) eqn:PC; auto. msr. rewrite PC. cbn. lia. Qed.
Lemma m_resume w : (m_w (resume w) <= m_w w)%nat.
Proof. unfold resume. destruct (paused w); auto. etransitivity; [apply m_wake|]. reflexivity. Qed.
Lemma resume_same w : closing (resume w) = closing w /\ sel_peer (resume w) = sel_peer w /\ wq (resume w) = wq w.
Proof. unfold resume, wake. destruct (paused w); auto. pr. destruct (pc w); auto. Qed.
Lemma m_w_step input w p w' p' : WInv input w p -> w_step w p w' p' -> (m_w w' < m_w w)%nat.
Proof.
  intros I ST. destruct ST as [w' p' ST|exc q Q|exc q Q|SP R|NE R|n NE R NO LT SZ|NE R SZ C|NE R SZ C].
  - destruct ST as [PC E|b rest PC E NB PA C|b rest w' p' PC E NB PA TW|PC|PC|exc PC].
    + unfold t_close. destruct (closing w) eqn:C; [|destruct (wb w) eqn:B]; msr; rewrite ?PC, ?C, ?B; cbn; bools; lia.
    + msr. rewrite PC. cbn. lia.
    + pose proof (ne_length _ NB) as L.
      destruct TW as [C|C NE|C B R|C B R SZ|k C B R LT SZ]; unfold maybe_pause; try destruct (_ <? _); msr; rewrite ?PC, ?E, ?B; cbn [m_pc m_src List.length]; bools; try lia.
    + destruct (closing w) eqn:C; [msr; rewrite PC, C; cbn; lia|].
      unfold helper, after_drain. bools; msr; rewrite ?PC; cbn; bools; lia.
    + unfold helper, after_drain. bools; msr; rewrite ?PC; cbn; bools; lia.
    + unfold after_drain. msr. rewrite PC. destruct exc; cbn; lia.
  - msr. rewrite Q. cbn. lia.
  - unfold p_lost. cbv zeta. assert (X : (m_w (up_lost true (up_wq q w)) < m_w w)%nat) by (msr; rewrite Q; cbn; lia). pr. destruct (paused w); [|exact X].
    eapply Nat.le_lt_trans; [apply m_wake|exact X].
  - msr. rewrite SP. bools; lia.
  - pose proof (ne_length _ NE). msr. bools; lia.
  - msr. lia.
  - pose proof (ne_length _ NE). eapply Nat.le_lt_trans; [apply m_resume|]. msr. lia.
  - pose proof (ne_length _ NE). pose proof (m_resume (up_buf [] (paused w) w)) as M. destruct (resume_same (up_buf [] (paused w) w)) as (R1 & R2 & R3).
    set (w1 := resume _) in *. msr. rewrite R3 in *. rewrite R1, C, R2 in M. rewrite C. destruct (sel_peer w); lia.
Qed.

Fixpoint m_rq (q : list rcb) : nat := match q with [] => 0 | CbData b :: q => 3 * List.length b + 1 + m_rq q | CbRTLost :: q => 3 + m_rq q | CbRPLost :: q => 2 + m_rq q end.
Definition m_r (r : reader) (p : pipe) : nat := 5 * List.length (data p) + m_rq (rq r) + 2 * List.length (sbuf r) + (if rclosing r then 0 else 5) + (match rstate r with RDone => 0 | _ => 1 end).
Lemma m_rq_app a b : (m_rq (a ++ b) = m_rq a + m_rq b)%nat.
Proof. induction a as [|[] a IH]; cbn; lia. Qed.
Ltac mrr := unfold m_r in *; rp; rewrite ?m_rq_app, ?app_length, ?skipn_length, ?firstn_length in *; cbn [m_rq List.length] in *; rewrite ?app_length, ?skipn_length, ?firstn_length in *.
Lemma m_r_step r p r' p' : RInv r p -> r_step r p r' p' -> (m_r r' p' < m_r r p)%nat.
Proof.
  intros I ST. destruct ST as [k C PA NO LE|C PA D W|b q Q|q Q|q Q|ND RDY].
  - mrr. lia.
  - mrr. rewrite C. lia.
  - unfold feed_data. cbv zeta. rp. bools; mrr; rewrite Q; cbn; bools; try discriminate; lia.
  - mrr. rewrite Q. cbn. lia.
  - mrr. rewrite Q. cbn. lia.
  - set (r0 := up_sr (skipn CHUNK (sbuf r)) (seof r) (spaused r) r) in *. destruct (resume_fields r0) as (F1 & F2 & F3 & F4 & F5 & F6 & F7 & F8 & F9).
    set (r1 := maybe_resume r0) in *. destruct (got_fields (firstn CHUNK (sbuf r)) r1) as (G1 & G2 & G3 & G4 & G5 & G6 & G7).
    destruct (ir_sink _ _ I) as (c & P & SK & M).
    destruct (got_inv c (firstn CHUNK (sbuf r)) r1) as (_ & H2 & _). { rewrite F5, F6. exact SK. } { rewrite F6, F7. exact M. } { rewrite F7. exact ND. }
    unfold m_r. rewrite G1, G2, G4, F1, F2, F3. unfold r0. rp. rewrite skipn_length.
    destruct CHUNK_pos as (k & EK). destruct (sbuf r) as [|z b] eqn:B.
    + rewrite firstn_nil in *. rewrite (proj2 H2 eq_refl). destruct (rstate r); [| |congruence]; cbn; lia.
    + assert (Y : (match rstate (got (firstn CHUNK (z :: b)) r1) with RDone => 0 | _ => 1 end <= 1)%nat) by (destruct (rstate (got (firstn CHUNK (z :: b)) r1)); auto with arith).
      set (g := match rstate (got _ r1) with RDone => _ | _ => _ end) in *. clearbody g. assert (X : (List.length (z :: b) - CHUNK <= List.length b)%nat) by (rewrite EK; cbn; lia).
      set (y := (List.length (z :: b) - CHUNK)%nat) in *. clearbody y. cbn [List.length]. destruct (rstate r); try congruence; lia.
Qed.

Fixpoint m_errs (n : nat) (s : st) : nat := match n with O => 0 | S k => m_errs k s + m_r (errs s k) (epipes s k) end.
Definition m (n : nat) (s : st) : nat := m_w (wr s) + m_r (out s) (pipes s n) + m_errs n s.
Ltac st := cbn [wr out errs pipes epipes procs saw_eof up_wr up_out up_err up_proc up_pipe up_epipe up_saw] in *.
Lemma m_errs_same n s s' : (forall i, errs s' i = errs s i) -> (forall i, epipes s' i = epipes s i) -> m_errs n s' = m_errs n s.
Proof. intros E1 E2. induction n as [|n IH]; cbn; [reflexivity|]. now rewrite IH, E1, E2. Qed.
Lemma m_errs_out n s i r p : (n <= i)%nat -> m_errs n (up_err i r p s) = m_errs n s.
Proof. induction n as [|n IH]; intros LE; cbn [m_errs errs epipes up_err]; [reflexivity|]. rewrite IH by lia. rewrite !set_ne by lia. reflexivity. Qed.
Lemma m_errs_in n s i r p : (i < n)%nat -> (m_r r p < m_r (errs s i) (epipes s i))%nat -> (m_errs n (up_err i r p s) < m_errs n s)%nat.
Proof.
  induction n as [|n IH]; intros LT M; [lia|]. cbn [m_errs errs epipes up_err]. destruct (Nat.eq_dec i n) as [->|NE].
  - rewrite m_errs_out by lia. rewrite !set_eq. lia.
  - rewrite !set_ne by congruence. specialize (IH ltac:(lia) M). lia.
Qed.
Section Global.
Context (n : nat) (input : list bytes) (olim : option nat) (elim : nat -> option nat) (NZ : n <> O).
Notation G := (GInv n input olim elim).
Lemma m_step s s' : G s -> l_step n s s' -> (m n s' < m n s)%nat.
Proof.
  intros I ST. destruct ST as [w p ST|r p ST|i r p LT ST]; unfold m.
  - pose proof (m_w_step _ _ _ _ _ (g_w _ _ _ _ _ I) ST). st. rewrite set_ne by congruence. rewrite (m_errs_same n s) by reflexivity. lia.
  - pose proof (m_r_step _ _ _ _ (g_out _ _ _ _ _ I) ST). st. rewrite set_eq. rewrite (m_errs_same n s) by reflexivity. lia.
  - pose proof (m_r_step _ _ _ _ (g_err _ _ _ _ _ I i) ST) as M. pose proof (m_errs_in n s i r p LT M). st. lia.
Qed.
Lemma m_run s k s' : G s -> loop_run n s k s' -> G s' /\ (k + m n s' <= m n s)%nat.
Proof.
  intros I R. induction R as [|k s1 s2 R [IH1 IH2] ST]; [split; [exact I|lia]|]. split; [eapply g_loop; eassumption|]. pose proof (m_step _ _ IH1 ST). lia.
Qed.

(** ** Idle states *)
Record Idle (s : st) : Prop := {
  d_w : pc (wr s) = WClosed \/ pc (wr s) = WFailed \/ (pc (wr s) = WWait /\ r_open (pipes s 0) = true);
  d_in : r_open (pipes s 0) = true -> w_open (pipes s 0) = true -> data (pipes s 0) <> [];
  d_out : (w_open (pipes s n) = true -> data (pipes s n) = []) /\ (w_open (pipes s n) = false -> rstate (out s) = RDone /\ sbuf (out s) = [] /\ queued (rq (out s)) = [] /\ data (pipes s n) = []);
  d_stuck : loop_idle n s;
  d_err : forall i, (i < n)%nat -> (w_open (epipes s i) = true -> data (epipes s i) = []) /\ (w_open (epipes s i) = false -> rstate (errs s i) = RDone /\ sbuf (errs s i) = [] /\ queued (rq (errs s i)) = [] /\ data (epipes s i) = []) }.
Definition must (s s' : st) : Prop := l_step n s s' /\ (PIPE_BUF <= room (pipes s 0) \/ p_in (pipes s' 0) = p_in (pipes s 0)).
Lemma progress_errs s k : (k <= n)%nat -> G s -> (exists s', must s s') \/ forall i, (i < k)%nat -> (forall r p, ~ r_step (errs s i) (epipes s i) r p) /\ (w_open (epipes s i) = true -> data (epipes s i) = []) /\ (w_open (epipes s i) = false -> rstate (errs s i) = RDone /\ sbuf (errs s i) = [] /\ queued (rq (errs s i)) = [] /\ data (epipes s i) = []).
Proof.
  intros LE I. induction k as [|k IH]; [right; intros; lia|]. destruct (IH ltac:(lia)) as [X|X]; [left; exact X|].
  destruct (r_progress _ _ (g_err _ _ _ _ _ I k)) as [(r & p & ST)|Y].
  - left. eexists. split; [eapply (ls_err _ _ k); [lia|exact ST]|]. right. reflexivity.
  - right. intros i LT. destruct (Nat.eq_dec i k) as [->|NE]; [exact Y|apply X; lia].
Qed.
Lemma progress s : G s -> (exists s', must s s') \/ Idle s.
Proof.
  intros I. destruct (w_progress _ _ _ (g_pk _ _ _ _ _ I 0) (g_w _ _ _ _ _ I)) as [(w & p & ST & X)|(A1 & A2 & A3 & A4)].
  { left. eexists. split; [apply ls_in; exact ST|]. st. rewrite set_eq. exact X. }
  destruct (r_progress _ _ (g_out _ _ _ _ _ I)) as [(r & p & ST)|(B0 & B)].
  { left. eexists. split; [apply ls_out; exact ST|]. right. st. rewrite set_ne by congruence. reflexivity. }
  destruct (progress_errs s n ltac:(lia) I) as [X|X]; [left; exact X|]. right. split; auto.
  - intros s' ST. destruct ST as [w p ST|r p ST|i r p LT ST].
    + st. rewrite set_eq. exact (A4 _ _ ST).
    + destruct (B0 _ _ ST).
    + destruct (proj1 (X i LT) _ _ ST).
  - intros i LT. apply X, LT.
Qed.
Lemma idle_is_idle s : G s -> loop_idle n s -> Idle s.
Proof.
  intros I L. destruct (progress s I) as [(s' & ST & X)|X]; [|exact X]. exfalso. destruct (L s' ST) as [A B]. destruct X; [lia|contradiction].
Qed.
Lemma gets_idle s : G s -> exists k s', loop_run n s k s' /\ loop_idle n s' /\ (k <= m n s)%nat.
Proof.
  intros I. remember (m n s) as M eqn:E. revert s I E. induction M as [M IH] using (well_founded_induction lt_wf). intros s I E.
  destruct (progress s I) as [(s1 & ST & _)|D]; [|exists 0%nat, s; split; [apply lr_none|split; [apply (d_stuck _ D)|lia]]].
  pose proof (m_step _ _ I ST) as L. destruct (IH (m n s1) ltac:(lia) s1 (g_loop _ _ _ _ NZ _ _ I ST) eq_refl) as (k & s2 & R & D & LE).
  exists (S k), s2. split; [|split; [exact D|lia]].
  clear - R ST. induction R as [|k s3 s4 R IH ST2]; [eapply lr_more; [apply lr_none|exact ST]|]. eapply lr_more; [exact IH|exact ST2].
Qed.
End Global.
