(** What the stream pair of a pseudo-terminal delivers. *)
From Verif Require Export PtyStreamProofs.
Open Scope Z_scope.

Lemma pev_dec (x y : pev) : {x = y} + {x <> y}.
Proof. decide equality; apply (list_eq_dec Z.eq_dec). Qed.
Ltac ins := rewrite ?in_app_iff; cbn [In]; auto.
Lemma pause_log s : p_log (pause_reading s) = p_log s.
Proof. unfold pause_reading. destruct (_ || _); reflexivity. Qed.
Lemma feed_log b s : p_log (feed_data b s) = p_log s.
Proof. unfold feed_data. cbv zeta. destruct (_ && _); lg; rewrite ?pause_log; reflexivity. Qed.
Lemma rclose_log s : p_log (reader_close s) = p_log s.
Proof. unfold reader_close. destruct (r_closing s); reflexivity. Qed.
Lemma close_log s : p_log (close s) = p_log s.
Proof. unfold close. rewrite rclose_log. unfold orig_close. destruct (w_closing s); [reflexivity|]. cbv zeta. destruct (w_buf s); reflexivity. Qed.
Lemma reads_log s a s' : reads s a s' -> p_log s' = p_log s \/ (p_log s' = p_log s ++ [PBroken] /\ a = RFail OtherOSError).
Proof. destruct 1; auto. Qed.
Lemma ready_log a s : p_log (read_ready a s) = p_log s.
Proof. destruct a; try reflexivity. apply feed_log. Qed.
Lemma resume_log r s : p_log (fst (resume_reading r s)) = p_log s \/ p_log (fst (resume_reading r s)) = p_log s ++ [PForeign].
Proof. unfold resume_reading. destruct (_ || _); [auto|]. cbv zeta. lg. destruct (fd_open s); [auto|]. destruct r; auto. Qed.
Lemma step_log s s' : step s s' -> exists l, p_log s' = p_log s ++ l.
Proof.
  intros ST. destruct ST as [s b O N|s O|s a s1 SR RD|s a SW PO|s c q Q|s n reused N B|s b a PO|s].
  - eexists. reflexivity.
  - eexists. reflexivity.
  - rewrite ready_log. destruct (reads_log _ _ _ RD) as [-> |[-> _]]; [exists []; now rewrite app_nil_r|eauto].
  - destruct a; cbn [write_ready]; cbv zeta; [|eexists; unfold w_close; lg; reflexivity]. destruct (_ =? _)%nat; [destruct (w_closing s)|]; unfold w_lost; lg; rewrite <- ?app_assoc; eauto.
  - destruct c as [|[]|]; cbn; try (exists []; now rewrite app_nil_r). eauto.
  - unfold read. destruct (s_exc s); [eexists; reflexivity|]. cbv zeta. unfold maybe_resume. lg. destruct (_ && _); [|destruct (firstn n (s_buf s)); lg; eauto].
    set (x := upd_sr _ _ _ _ _). destruct (resume_log reused x) as [E|E]; destruct (resume_reading reused x) as [s1 r]; cbn in E; (destruct r; [|destruct (firstn n (s_buf s))]); lg; rewrite E; lg; rewrite <- ?app_assoc; eauto.
  - unfold write. destruct b; [eexists; reflexivity|]. lg. destruct (w_closing s); [eexists; reflexivity|]. destruct (w_buf s); [|eexists; reflexivity].
    destruct a; [|unfold w_close; lg; destruct (w_buf s); lg; rewrite <- app_assoc; eauto]. cbv zeta. destruct (_ =? _)%nat; lg; rewrite <- ?app_assoc; eauto.
  - rewrite close_log. eexists. reflexivity.
Qed.
Lemma step_keeps s s' e : step s s' -> ~ In e (p_log s') -> ~ In e (p_log s).
Proof. intros ST N H. destruct (step_log _ _ ST) as (l & E). apply N. rewrite E. apply in_or_app. now left. Qed.

(** ** Input *)
Definition Win (s : ps) : Prop :=
  (~ In PRefused (p_log s) -> terminal_took (p_log s) ++ w_buf s = program_wrote (p_log s))
  /\ exists r, program_wrote (p_log s) = terminal_took (p_log s) ++ r.
Lemma pause_wbuf s : w_buf (pause_reading s) = w_buf s.
Proof. unfold pause_reading. destruct (_ || _); reflexivity. Qed.
Lemma feed_wbuf b s : w_buf (feed_data b s) = w_buf s.
Proof. unfold feed_data. cbv zeta. destruct (_ && _); lg; rewrite ?pause_wbuf; reflexivity. Qed.
Lemma win_same s s' l : Win s -> p_log s' = p_log s ++ l -> w_buf s' = w_buf s -> (forall e, In e l -> e <> PRefused /\ e <> PClose /\ (forall b, e <> PTook b) /\ (forall b, e <> PWrite b)) -> Win s'.
Proof.
  intros [A (r & B)] L W N.
  assert (T : terminal_took l = []). { clear - N. induction l as [|e l IH]; [reflexivity|]. destruct (N e (or_introl eq_refl)) as (N1 & N2 & N3 & N4). cbn. destruct e; try (apply IH; intros; apply N; now right). edestruct N3; reflexivity. }
  assert (P : program_wrote l = []). { clear - N. induction l as [|e l IH]; [reflexivity|]. destruct (N e (or_introl eq_refl)) as (N1 & N2 & N3 & N4). cbn. destruct e; try (apply IH; intros; apply N; now right); [edestruct N4; reflexivity|reflexivity]. }
  assert (P' : program_wrote (p_log s ++ l) = program_wrote (p_log s)).
  { destruct (in_dec pev_dec PClose (p_log s)) as [Q|Q]; [now apply wrote_closed|]. rewrite wrote_open, P, app_nil_r by exact Q. reflexivity. }
  unfold Win. rewrite L, W, took_app, T, app_nil_r, P'. split; [|eauto]. intros NR. apply A. intros Q. apply NR. apply in_or_app. now left.
Qed.
Ltac solve_in := intros ? [<-|[]]; repeat split; intros; discriminate.
Lemma win_step s s' : Inv s -> Win s -> step s s' -> Win s'.
Proof.
  intros I W ST. destruct ST as [s b O N|s O|s a s1 SR RD|s a SW PO|s c q Q|s n reused N B|s b a PO|s].
  - eapply win_same; [exact W|reflexivity|reflexivity|solve_in].
  - eapply win_same; [exact W|reflexivity|reflexivity|solve_in].
  - assert (WB : w_buf (read_ready a s1) = w_buf s). { transitivity (w_buf s1); [destruct a; try reflexivity; apply feed_wbuf|destruct RD; reflexivity]. }
    destruct (reads_log _ _ _ RD) as [E|[E _]].
    + eapply win_same with (l := []); [exact W|rewrite ready_log, app_nil_r; exact E|exact WB|intros ? []].
    + eapply win_same with (l := [PBroken]); [exact W|rewrite ready_log; exact E|exact WB|solve_in].
  - destruct W as [A (r & B)]. assert (NE : w_buf s <> []) by (apply (i_selw _ I), SW). assert (NR : ~ In PRefused (p_log s)) by (intros X; destruct (i_refused _ I X); contradiction). specialize (A NR).
    destruct a as [n|]; cbn [write_ready]; cbv zeta.
    + assert (G : forall l, program_wrote (p_log s ++ PTook (firstn n (w_buf s)) :: l) = program_wrote (p_log s ++ l)).
      { intros l. clear. induction (p_log s) as [|[] l0 IH]; cbn; congruence. }
      assert (K : forall s', p_log s' = p_log s ++ [PTook (firstn n (w_buf s))] \/ p_log s' = p_log s ++ [PTook (firstn n (w_buf s)); PClosed] -> w_buf s' = skipn n (w_buf s) -> Win s').
      { intros s' L WB. assert (T : terminal_took (p_log s') = terminal_took (p_log s) ++ firstn n (w_buf s)) by (destruct L as [-> | ->]; rewrite took_app; cbn; now rewrite app_nil_r).
        assert (P : program_wrote (p_log s') = program_wrote (p_log s)). { destruct L as [-> | ->]; rewrite G, ?app_nil_r; [reflexivity|]. clear. induction (p_log s) as [|[] l0 IH]; cbn; congruence. }
        unfold Win. rewrite T, P, WB, <- A, <- !app_assoc, firstn_skipn. split; [reflexivity|]. exists (skipn n (w_buf s)). now rewrite <- app_assoc, firstn_skipn. }
      destruct (Nat.eqb_spec n (List.length (w_buf s))) as [E|E]; [destruct (w_closing s)|]; (apply K; [unfold w_lost; lg; rewrite <- ?app_assoc; auto|lg; try reflexivity; rewrite skipn_all2 by lia; reflexivity]).
    + assert (L : p_log (w_close (upd_sel_w false (upd_wt [] (w_closing s) (log PRefused s)))) = p_log s ++ [PRefused]) by reflexivity.
      unfold Win. rewrite L, took_app. cbn. split; [intros X; exfalso; apply X; ins|]. rewrite app_nil_r.
      assert (P : program_wrote (p_log s ++ [PRefused]) = program_wrote (p_log s)) by (clear; induction (p_log s) as [|[] l0 IH]; cbn; congruence). rewrite P. eauto.
  - assert (WB : w_buf (run_callback c (upd_queue q s)) = w_buf s) by (destruct c as [|[]|]; reflexivity).
    destruct c as [|[]|]; cbn [run_callback reader_lost] in *; try (eapply win_same with (l := []); [exact W|lg; now rewrite app_nil_r|exact WB|intros ? []]).
    eapply win_same with (l := [PClosed]); [exact W|reflexivity|exact WB|solve_in].
  - unfold read. destruct (s_exc s); [eapply win_same; [exact W|reflexivity|reflexivity|solve_in]|]. cbv zeta.
    set (x := upd_sr _ _ _ _ _). assert (M : exists l, p_log (fst (maybe_resume reused x)) = p_log s ++ l /\ (l = [] \/ l = [PForeign]) /\ w_buf (fst (maybe_resume reused x)) = w_buf s).
    { unfold maybe_resume. destruct (_ && _); [|exists []; rewrite app_nil_r; cbn; auto]. set (y := upd_sr _ _ _ _ x).
      assert (WB : w_buf (fst (resume_reading reused y)) = w_buf s). { unfold resume_reading. destruct (_ || _); [reflexivity|]. cbv zeta. lg. change (fd_open y) with (fd_open s). destruct (fd_open s); [reflexivity|]. destruct reused; reflexivity. }
      destruct (resume_log reused y) as [E|E]; rewrite E, WB; [exists []; rewrite app_nil_r|exists [PForeign]]; auto. }
    destruct M as (l & L & LL & WB). destruct (maybe_resume reused x) as [s1 rr]. cbn in L, WB.
    assert (K : forall e, e <> PRefused -> e <> PClose -> (forall b, e <> PTook b) -> (forall b, e <> PWrite b) -> Win (log e s1)).
    { intros e N1 N2 N3 N4. eapply win_same with (l := l ++ [e]); [exact W|lg; rewrite L; now rewrite app_assoc|exact WB|]. intros e' H. apply in_app_iff in H as [H|[<-|[]]]; [|auto]. destruct LL as [-> | ->]; [destruct H|]. destruct H as [<-|[]]. repeat split; intros; discriminate. }
    destruct rr; [|destruct (firstn n (s_buf s))]; apply K; intros; discriminate.
  - (* write *)
    destruct W as [A (r & B)].
    assert (PW : forall l, terminal_took (p_log s ++ PWrite b :: l) = terminal_took (p_log s) ++ terminal_took l) by (intros; now rewrite took_app).
    assert (SAME : b = [] \/ w_closing s = true -> Win (log (PWrite b) s)).
    { intros C. unfold Win. lg. rewrite took_app. cbn. rewrite app_nil_r. destruct (in_dec pev_dec PClose (p_log s)) as [Q|Q].
      - rewrite wrote_closed by exact Q. split; [|eauto]. intros NR. apply A. intros X. apply NR. ins.
      - rewrite wrote_open by exact Q. cbn. rewrite app_nil_r. split; [|rewrite B, <- app_assoc; eauto]. intros NR. assert (NR' : ~ In PRefused (p_log s)) by (intros X; apply NR; ins).
        destruct C as [-> |C]; [rewrite app_nil_r; auto|]. destruct (i_why _ I C); contradiction. }
    unfold write. destruct b as [|z b]; [apply SAME; auto|]. lg. destruct (w_closing s) eqn:W; [apply SAME; auto|]. clear SAME.
    assert (NC : ~ In PClose (p_log s)) by (intros X; destruct (i_closed _ I X); congruence).
    assert (NR : ~ In PRefused (p_log s)) by (intros X; destruct (i_refused _ I X); congruence). specialize (A NR).
    assert (WO : forall l, program_wrote (p_log s ++ PWrite (z :: b) :: l) = program_wrote (p_log s) ++ (z :: b) ++ program_wrote l) by (intros l; rewrite wrote_open by exact NC; reflexivity).
    destruct (w_buf s) as [|y l] eqn:BU.
    + rewrite app_nil_r in A. destruct a as [n|]; cbv zeta.
      * assert (K : forall s', p_log s' = p_log s ++ [PWrite (z :: b); PTook (firstn n (z :: b))] -> w_buf s' = skipn n (z :: b) -> Win s').
        { intros s' L WB. unfold Win. rewrite L, WB, PW, WO. cbn [program_wrote terminal_took]. rewrite !app_nil_r, A, <- !app_assoc, firstn_skipn. split; [reflexivity|]. exists (skipn n (z :: b)). now rewrite <- app_assoc, firstn_skipn. }
        destruct (Nat.eqb_spec n (List.length (z :: b))) as [E|E]; apply K; lg; rewrite <- ?app_assoc; try reflexivity. rewrite skipn_all2 by lia. exact BU.
      * unfold w_close, Win. lg. rewrite BU. lg. rewrite <- app_assoc. cbn [app]. rewrite PW, WO. cbn. split; [intros X; exfalso; apply X; ins|]. rewrite !app_nil_r, A. eauto.
    + unfold Win. lg. rewrite PW, WO. cbn [program_wrote terminal_took]. rewrite !app_nil_r, <- A, <- !app_assoc. split; [reflexivity|]. rewrite <- ?app_assoc. eauto.
  - destruct W as [A (r & B)].
    assert (WB : w_buf (close (log PClose s)) = w_buf s). { unfold close, orig_close, reader_close. lg. destruct (w_closing s), (r_closing s) eqn:RC, (w_buf s) eqn:BU; cbv zeta; lg; rewrite ?RC; unfold r_close; lg; rewrite ?BU; reflexivity. }
    unfold Win. rewrite close_log, WB. lg. rewrite took_app. cbn. rewrite app_nil_r.
    assert (P : program_wrote (p_log s ++ [PClose]) = program_wrote (p_log s)). { clear. induction (p_log s) as [|[] l IH]; cbn; congruence. }
    rewrite P. split; [|eauto]. intros NR. apply A. intros X. apply NR. ins.
Qed.
Lemma win_reachable s : reachable s -> Win s.
Proof. induction 1 as [|s s' R IH ST]; [split; [reflexivity|exists []; reflexivity]|]. eapply win_step; [apply inv_reachable, R|exact IH|exact ST]. Qed.

(** ** Output *)
Record Out (s : ps) : Prop := {
  o_flow : child_wrote (p_log s) = reads_gave (p_log s) ++ s_buf s ++ k_out s;
  o_hang : k_open s = false <-> In PHangup (p_log s) }.
Lemma out_same s s' l : Out s -> p_log s' = p_log s ++ l -> s_buf s' = s_buf s -> k_out s' = k_out s -> k_open s' = k_open s ->
  (forall e, In e l -> e <> PHangup /\ (forall b, e <> PChild b) /\ (forall b, e <> PGot b)) -> Out s'.
Proof.
  intros [A B] L SB KO KP N.
  assert (C : child_wrote l = []). { clear - N. induction l as [|e l IH]; [reflexivity|]. destruct (N e (or_introl eq_refl)) as (N1 & N2 & N3). cbn. destruct e; try (apply IH; intros; apply N; now right). edestruct N2; reflexivity. }
  assert (G : reads_gave l = []). { clear - N. induction l as [|e l IH]; [reflexivity|]. destruct (N e (or_introl eq_refl)) as (N1 & N2 & N3). cbn. destruct e; try (apply IH; intros; apply N; now right). edestruct N3; reflexivity. }
  split; rewrite ?L, ?child_app, ?gave_app, ?C, ?G, ?app_nil_r, ?SB, ?KO, ?KP; [exact A|]. rewrite B, in_app_iff. split; [auto|]. intros [H|H]; [exact H|]. destruct (N _ H) as (X & _). congruence.
Qed.
Lemma feed_kernel b s : k_out (feed_data b s) = k_out s /\ k_open (feed_data b s) = k_open s /\ s_buf (feed_data b s) = s_buf s ++ b.
Proof. unfold feed_data, pause_reading. cbv zeta. lg. destruct (_ && _); [|auto]. destruct (_ || _); auto. Qed.
Lemma resume_frame r s : k_out (fst (resume_reading r s)) = k_out s /\ k_open (fst (resume_reading r s)) = k_open s /\ s_buf (fst (resume_reading r s)) = s_buf s.
Proof. unfold resume_reading. destruct (_ || _); [auto|]. cbv zeta. lg. destruct (fd_open s); [auto|]. destruct r; auto. Qed.
(** Without a refused write, resuming never goes wrong. *)
Lemma resume_calm r s : Inv s -> ~ In PRefused (p_log s) -> snd (resume_reading r s) = false /\ p_log (fst (resume_reading r s)) = p_log s.
Proof.
  intros I NR. unfold resume_reading. destruct (r_closing s || negb (r_paused s)) eqn:Q; [auto|]. apply orb_false_iff in Q as [Q1 _]. cbv zeta. lg.
  destruct (fd_open s) eqn:FO; [auto|]. exfalso.
  assert (W : w_closing s = true). { pose proof (i_lost _ I) as B. assert (N : closes (p_log s) <> 0%nat) by (intros Z; apply (i_fd _ I) in Z; congruence). destruct (w_closing s); [reflexivity|cbn in B; lia]. }
  destruct (i_why _ I W) as [X|X]; [contradiction|]. destruct (i_closed _ I X). congruence.
Qed.
Lemma read_calm n r s : Inv s -> ~ In PRefused (p_log s) -> s_exc s = false -> exists s1,
  read n r s = log (match firstn n (s_buf s) with [] => PEnd | b => PGot b end) s1 /\ p_log s1 = p_log s /\ s_buf s1 = skipn n (s_buf s) /\ k_out s1 = k_out s /\ k_open s1 = k_open s
  /\ s1 = fst (maybe_resume r (upd_sr (skipn n (s_buf s)) (s_eof s) false (s_paused s) s)).
Proof.
  intros I NR X. unfold read. rewrite X. cbv zeta. set (x := upd_sr _ _ _ _ _).
  assert (M : snd (maybe_resume r x) = false /\ p_log (fst (maybe_resume r x)) = p_log s /\ s_buf (fst (maybe_resume r x)) = skipn n (s_buf s) /\ k_out (fst (maybe_resume r x)) = k_out s /\ k_open (fst (maybe_resume r x)) = k_open s).
  { unfold maybe_resume. destruct (_ && _); [|auto]. set (y := upd_sr _ _ _ _ x). assert (IY : Inv y) by (apply inv_sr, inv_sr, I). destruct (resume_calm r y IY NR) as [A B]. destruct (resume_frame r y) as (C & D & E). rewrite A, B, C, D, E. auto. }
  destruct (maybe_resume r x) as [s1 rr]. cbn in M. destruct M as (-> & L & SB & KO & KP). exists s1. destruct (firstn n (s_buf s)); auto 10.
Qed.
Lemma out_step s s' : Inv s -> step s s' -> ~ In PRefused (p_log s') -> Out s -> Out s'.
Proof.
  intros I ST NR O. pose proof (step_keeps _ _ _ ST NR) as NR0. pose proof (inv_step _ _ I ST) as I'. destruct ST as [s b OP N|s OP|s a s1 SR RD|s a SW PO|s c q Q|s n reused N B|s b a PO|s].
  - destruct O as [A B]. split; lg; rewrite ?child_app, ?gave_app; cbn; rewrite ?app_nil_r, ?in_log; [rewrite A, <- !app_assoc; reflexivity|]. rewrite OP in B. rewrite <- B. intuition discriminate.
  - destruct O as [A B]. split; lg; rewrite ?child_app, ?gave_app; cbn; rewrite ?app_nil_r, ?in_log; [exact A|]. tauto.
  - assert (FO : fd_open s = true).
    { destruct (fd_open s) eqn:FO; [reflexivity|]. exfalso. destruct (i_selr _ I SR) as [RC _].
      assert (W : w_closing s = true). { pose proof (i_lost _ I) as B. assert (N : closes (p_log s) <> 0%nat) by (intros Z; apply (i_fd _ I) in Z; congruence). destruct (w_closing s); [reflexivity|cbn in B; lia]. }
      destruct (i_why _ I W) as [X|X]; [contradiction|]. destruct (i_closed _ I X). congruence. }
    destruct RD as [b rest _ K _| | | | |]; cbn [read_ready]; try (eapply out_same with (l := []); [exact O|lg; now rewrite app_nil_r|reflexivity..|intros ? []]); [| |congruence].
    + destruct O as [A B]. destruct (feed_kernel b (upd_kernel rest (k_open s) s)) as (F1 & F2 & F3). split; rewrite feed_log, ?F1, ?F2, ?F3; lg; [|exact B]. rewrite A, K, <- !app_assoc. reflexivity.
    + eapply out_same with (l := [PBroken]); [exact O|reflexivity..|]. intros ? [<-|[]]; repeat split; intros; discriminate.
  - destruct a as [n|]; cbn [write_ready] in *; cbv zeta in *; [|exfalso; apply NR; unfold w_close; lg; ins].
    destruct (_ =? _)%nat; [destruct (w_closing s)|]; unfold w_lost in *; lg.
    + eapply out_same with (l := [PTook (firstn n (w_buf s)); PClosed]); [exact O|lg; now rewrite <- app_assoc|reflexivity..|]. intros ? [<-|[<-|[]]]; repeat split; intros; discriminate.
    + eapply out_same; [exact O|reflexivity..|]. intros ? [<-|[]]; repeat split; intros; discriminate.
    + eapply out_same; [exact O|reflexivity..|]. intros ? [<-|[]]; repeat split; intros; discriminate.
  - destruct c as [|[]|]; cbn [run_callback reader_lost]; try (eapply out_same with (l := []); [exact O|lg; now rewrite app_nil_r|reflexivity..|intros ? []]).
    eapply out_same; [exact O|reflexivity..|]. intros ? [<-|[]]; repeat split; intros; discriminate.
  - destruct (s_exc s) eqn:X.
    + unfold read. rewrite X. eapply out_same; [exact O|reflexivity..|]. intros ? [<-|[]]; repeat split; intros; discriminate.
    + destruct (read_calm n reused s I NR0 X) as (s1 & -> & L & SB & KO & KP & _). destruct O as [A H].
      split; lg; rewrite L, ?child_app, ?gave_app, ?SB, ?KO, ?KP, ?in_log.
      * rewrite A. destruct (firstn n (s_buf s)) as [|z l] eqn:F; cbn; rewrite ?app_nil_r, <- ?app_assoc; (rewrite <- (firstn_skipn n (s_buf s)) at 1; rewrite F); cbn; rewrite <- ?app_assoc; reflexivity.
      * rewrite H. destruct (firstn n (s_buf s)); intuition discriminate.
  - assert (K : exists l, p_log (write b a (log (PWrite b) s)) = p_log s ++ PWrite b :: l /\ (forall e, In e l -> exists x, e = PTook x) /\ s_buf (write b a (log (PWrite b) s)) = s_buf s
       /\ k_out (write b a (log (PWrite b) s)) = k_out s /\ k_open (write b a (log (PWrite b) s)) = k_open s).
    { unfold write in *. destruct b as [|z b]; [exists []; repeat split; auto; intros ? []|]. lg. destruct (w_closing s); [exists []; repeat split; auto; intros ? []|]. destruct (w_buf s) eqn:BU; [|exists []; repeat split; auto; intros ? []].
      destruct a as [n|]; [|exfalso; apply NR; unfold w_close; lg; rewrite BU; lg; ins]. cbv zeta in *. exists [PTook (firstn n (z :: b))]. destruct (_ =? _)%nat; lg; rewrite <- app_assoc; repeat split; auto; intros ? [<-|[]]; eauto. }
    destruct K as (l & L & LL & SB & KO & KP). eapply out_same; [exact O|exact L|exact SB|exact KO|exact KP|]. intros e [<-|H]; [repeat split; intros; discriminate|]. destruct (LL _ H) as (x & ->). repeat split; intros; discriminate.
  - assert (K : s_buf (close (log PClose s)) = s_buf s /\ k_out (close (log PClose s)) = k_out s /\ k_open (close (log PClose s)) = k_open s).
    { unfold close, orig_close, reader_close, r_close. lg. destruct (w_closing s), (r_closing s) eqn:RC, (w_buf s) eqn:BU; cbv zeta; lg; rewrite ?RC; lg; auto. }
    destruct K as (SB & KO & KP). eapply out_same with (l := [PClose]); [exact O|rewrite close_log; reflexivity|exact SB|exact KO|exact KP|]. intros ? [<-|[]]; repeat split; intros; discriminate.
Qed.
Lemma out_reachable s : reachable s -> ~ In PRefused (p_log s) -> Out s.
Proof.
  induction 1 as [|s s' R IH ST]; intros NR; [split; [reflexivity|cbn; split; [discriminate|tauto]]|]. eapply out_step; [apply inv_reachable, R|exact ST|exact NR|]. apply IH. eapply step_keeps; eassumption.
Qed.
