(** Invariants of the stream pair of a pseudo-terminal. *)
From Verif Require Export PtyStreamModel.
Open Scope Z_scope.

(** ** What a log says *)
(** What the processes on the terminal wrote, and what reads returned. *)
Fixpoint child_wrote (l : list pev) : bytes := match l with [] => [] | PChild b :: l => b ++ child_wrote l | _ :: l => child_wrote l end.
Fixpoint reads_gave (l : list pev) : bytes := match l with [] => [] | PGot b :: l => b ++ reads_gave l | _ :: l => reads_gave l end.
(** What the program wrote before it called close, and what the terminal took. *)
Fixpoint program_wrote (l : list pev) : bytes := match l with [] => [] | PWrite b :: l => b ++ program_wrote l | PClose :: _ => [] | _ :: l => program_wrote l end.
Fixpoint terminal_took (l : list pev) : bytes := match l with [] => [] | PTook b :: l => b ++ terminal_took l | _ :: l => terminal_took l end.
Fixpoint closes (l : list pev) : nat := match l with [] => 0 | PClosed :: l => S (closes l) | _ :: l => closes l end.
Fixpoint pending (l : list callback) : nat := match l with [] => 0 | CbWriterLost :: l => S (pending l) | _ :: l => pending l end.

Lemma child_app l l' : child_wrote (l ++ l') = child_wrote l ++ child_wrote l'.
Proof. induction l as [|[] l IH]; cbn; rewrite ?IH, ?app_assoc; reflexivity. Qed.
Lemma gave_app l l' : reads_gave (l ++ l') = reads_gave l ++ reads_gave l'.
Proof. induction l as [|[] l IH]; cbn; rewrite ?IH, ?app_assoc; reflexivity. Qed.
Lemma took_app l l' : terminal_took (l ++ l') = terminal_took l ++ terminal_took l'.
Proof. induction l as [|[] l IH]; cbn; rewrite ?IH, ?app_assoc; reflexivity. Qed.
Lemma closes_app l l' : closes (l ++ l') = (closes l + closes l')%nat.
Proof. induction l as [|[] l IH]; cbn; rewrite ?IH; reflexivity. Qed.
Lemma pending_app l l' : pending (l ++ l') = (pending l + pending l')%nat.
Proof. induction l as [|[] l IH]; cbn; rewrite ?IH; reflexivity. Qed.
Lemma wrote_open l l' : ~ In PClose l -> program_wrote (l ++ l') = program_wrote l ++ program_wrote l'.
Proof. induction l as [|[] l IH]; cbn; intros N; try (exfalso; apply N; now left); rewrite ?IH by tauto; rewrite ?app_assoc; auto. Qed.
Lemma wrote_closed l l' : In PClose l -> program_wrote (l ++ l') = program_wrote l.
Proof. induction l as [|[] l IH]; cbn; intros H; try (destruct H as [H|H]; [discriminate|]); try (rewrite IH by assumption); try reflexivity. destruct H. Qed.
Lemma closes_in l : (closes l <> 0)%nat <-> In PClosed l.
Proof. induction l as [|[] l IH]; cbn; try (rewrite IH; intuition discriminate); [intuition lia|]. intuition lia. Qed.

Record Inv (s : ps) : Prop := {
  i_selw : sel_w s = true <-> w_buf s <> [];
  i_lost : (pending (queue s) + closes (p_log s))%nat = (if w_closing s && match w_buf s with [] => true | _ => false end then 1 else 0)%nat;
  i_fd : fd_open s = true <-> closes (p_log s) = 0%nat;
  i_selr : sel_r s = true -> r_closing s = false /\ r_paused s = false;
  i_why : w_closing s = true -> In PRefused (p_log s) \/ In PClose (p_log s);
  i_closed : In PClose (p_log s) -> w_closing s = true /\ r_closing s = true;
  i_refused : In PRefused (p_log s) -> w_closing s = true /\ w_buf s = [];
  i_foreign : In PForeign (p_log s) -> In PRefused (p_log s) }.
Ltac lg := cbn [p_log log upd_kernel upd_sel_r upd_sel_w upd_rt upd_sr upd_wt upd_fd upd_queue call_soon sel_w sel_r w_buf queue w_closing fd_open r_closing r_paused k_out k_open s_buf s_eof s_exc s_paused] in *.
Lemma in_log (e : pev) l x : In x (l ++ [e]) <-> In x l \/ x = e.
Proof. rewrite in_app_iff. cbn. intuition. Qed.

(** The actions that touch only the child, the StreamReader and the log. *)
Lemma inv_log s e : Inv s -> e <> PClosed -> e <> PClose -> e <> PRefused -> e <> PForeign -> Inv (log e s).
Proof.
  intros [A B C D E F G H] N1 N2 N3 N4. split; lg; rewrite ?closes_app; try assumption.
  - rewrite <- B. destruct e; cbn; try congruence; lia.
  - rewrite C. destruct e; cbn; try congruence; lia.
  - intros W. rewrite !in_log. destruct (E W); auto.
  - rewrite in_log. intros [Q|Q]; [auto|congruence].
  - rewrite in_log. intros [Q|Q]; [auto|congruence].
  - rewrite !in_log. intros [Q|Q]; [auto|congruence].
Qed.
Lemma inv_kernel s a b : Inv s -> Inv (upd_kernel a b s).
Proof. intros [A B C D E F G H]. split; assumption. Qed.
Lemma inv_sr s a b c d : Inv s -> Inv (upd_sr a b c d s).
Proof. intros [A B C D E F G H]. split; assumption. Qed.
Lemma inv_sel_off s : Inv s -> Inv (upd_sel_r false s).
Proof. intros [A B C D E F G H]. split; lg; try assumption. discriminate. Qed.
Lemma inv_pause s : Inv s -> Inv (pause_reading s).
Proof.
  intros I. unfold pause_reading. destruct (r_paused s || r_closing s) eqn:Q; [exact I|]. destruct I as [A B C D E F G H]. split; lg; try assumption; try discriminate.
Qed.
Lemma inv_feed s b : Inv s -> Inv (feed_data b s).
Proof. intros I. unfold feed_data. cbv zeta. destruct (_ && _); [apply inv_sr, inv_pause|]; apply inv_sr, I. Qed.
Lemma inv_rclosing s : Inv s -> Inv (upd_sel_r false (upd_rt true (r_paused s) s)).
Proof. intros [A B C D E F G H]. split; lg; try assumption; try discriminate. intros Q. split; [apply F, Q|reflexivity]. Qed.
Lemma inv_soon s c : Inv s -> c <> CbWriterLost -> Inv (call_soon c s).
Proof. intros [A B C D E F G H] N. split; lg; try assumption. rewrite pending_app, <- B. destruct c; cbn; try congruence; lia. Qed.
Lemma inv_rclose s c : Inv s -> Inv (r_close c s).
Proof. intros I. apply inv_soon; [apply inv_rclosing, I|discriminate]. Qed.
Lemma inv_reader_close s : Inv s -> Inv (reader_close s).
Proof. intros I. unfold reader_close. destruct (r_closing s); [exact I|apply inv_rclose, I]. Qed.
Lemma inv_resume s reused : Inv s -> Inv (fst (resume_reading reused s)).
Proof.
  intros I. unfold resume_reading. destruct (r_closing s || negb (r_paused s)) eqn:Q; [exact I|].
  apply orb_false_iff in Q as [Q1 Q2]. rewrite Q1. cbv zeta. destruct I as [A B C D E F G H]. lg.
  destruct (fd_open s) eqn:FO; [|destruct reused]; cbn [fst]; (split; lg; try assumption; try (intros; split; reflexivity)).
  - rewrite FO. exact C.
  - intros W. destruct (F W). congruence.
  - rewrite closes_app. cbn. rewrite Nat.add_0_r. exact B.
  - rewrite closes_app. cbn. rewrite Nat.add_0_r, FO. exact C.
  - intros W. rewrite !in_log. destruct (E W); auto.
  - rewrite in_log. intros [W|W]; [destruct (F W); congruence|discriminate].
  - rewrite in_log. intros [W|W]; [auto|discriminate].
  - intros _. rewrite in_log. left.
    assert (W : w_closing s = true). { assert (N : closes (p_log s) <> 0%nat) by (intros Z; apply C in Z; discriminate). destruct (w_closing s); [reflexivity|cbn in B; lia]. }
    destruct (E W) as [X|X]; [exact X|]. destruct (F X). congruence.
  - rewrite FO. exact C.
  - intros W. destruct (F W). congruence.
Qed.

(** ** Writing and closing *)
Lemma inv_w_lost s : Inv s -> (pending (queue s) + closes (p_log s) = 0)%nat -> w_closing s = true -> w_buf s = [] -> False.
Proof. intros I Z W B. pose proof (i_lost _ I) as L. rewrite W, B in L. cbn in L. lia. Qed.
Lemma inv_write s b a : Inv s -> possible a b -> Inv (write b a (log (PWrite b) s)).
Proof.
  intros I PO. assert (I1 : Inv (log (PWrite b) s)) by (apply inv_log; try discriminate; exact I). revert I1. generalize (log (PWrite b) s). clear s I. intros s I.
  unfold write. destruct b as [|x b]; [exact I|]. destruct (w_closing s) eqn:W; [exact I|]. destruct (w_buf s) as [|y l] eqn:BU.
  - destruct a as [n|].
    + cbv zeta. set (s1 := log _ s). assert (I1 : Inv s1) by (apply inv_log; try discriminate; exact I). destruct (Nat.eqb_spec n (List.length (x :: b))) as [E|E]; [exact I1|].
      cbn in PO. assert (NE : skipn n (x :: b) <> []). { intros Q. apply (f_equal (@List.length _)) in Q. rewrite skipn_length in Q. cbn [List.length] in *. lia. }
      assert (W1 : w_closing s1 = false) by exact W. assert (B1 : w_buf s1 = []) by exact BU. clearbody s1. destruct I1 as [A B C D E0 F G H]. split; lg; try assumption.
      * split; auto.
      * rewrite B, W1. reflexivity.
      * discriminate.
      * intros Q. destruct (F Q). congruence.
      * intros Q. destruct (G Q). congruence.
    + unfold w_close. lg. rewrite BU. destruct I as [A B C D E F G H]. split; lg.
      * rewrite A, BU. tauto.
      * rewrite pending_app, closes_app. rewrite W in B. cbn in *. lia.
      * rewrite closes_app. cbn. rewrite Nat.add_0_r. exact C.
      * discriminate.
      * intros _. rewrite !in_log. auto.
      * rewrite in_log. intros [Q|Q]; [destruct (F Q); congruence|discriminate].
      * auto.
      * intros _. rewrite in_log. auto.
  - destruct I as [A B C D E F G H]. split; lg; try assumption.
    + rewrite A, BU. split; intros _; [discriminate|]. discriminate.
    + rewrite B, W, BU. reflexivity.
    + discriminate.
    + intros Q. destruct (F Q). congruence.
    + intros Q. destruct (G Q). congruence.
Qed.
Lemma inv_write_ready s a : Inv s -> sel_w s = true -> possible a (w_buf s) -> Inv (write_ready a s).
Proof.
  intros I SW PO. pose proof (proj1 (i_selw _ I) SW) as NE. destruct a as [n|]; cbn [write_ready].
  - set (s1 := log (PTook (firstn n (w_buf s))) s). assert (I1 : Inv s1) by (apply inv_log; try discriminate; exact I).
    change (w_buf s) with (w_buf s1). change (w_buf s) with (w_buf s1) in NE, PO. change (w_closing s) with (w_closing s1). change (sel_w s1 = true) in SW. clearbody s1. clear I s. rename s1 into s, I1 into I.
    cbn in PO. destruct (Nat.eqb_spec n (List.length (w_buf s))) as [E|E].
    + destruct I as [A B C D E0 F G H]. assert (NR : ~ In PRefused (p_log s)) by (intros Q; destruct (G Q); contradiction).
      destruct (w_buf s) as [|y l] eqn:BU; [congruence|]. rewrite andb_false_r in B. destruct (w_closing s) eqn:W.
      * unfold w_lost. split; lg; rewrite ?closes_app; cbn.
        -- split; [discriminate|congruence].
        -- lia.
        -- split; [discriminate|lia].
        -- discriminate.
        -- intros _. rewrite !in_log. destruct (E0 eq_refl); auto.
        -- rewrite in_log. intros [Q|Q]; [apply F, Q|discriminate].
        -- rewrite in_log. intros [Q|Q]; [contradiction|discriminate].
        -- rewrite !in_log. intros [Q|Q]; [left; auto|discriminate].
      * split; lg; try assumption; auto.
        -- split; [discriminate|congruence].
    + destruct I as [A B C D E0 F G H].
      assert (NE2 : skipn n (w_buf s) <> []). { intros Q. apply (f_equal (@List.length _)) in Q. rewrite skipn_length in Q. cbn [List.length] in *. lia. }
      split; lg; try assumption.
      * rewrite A. tauto.
      * rewrite B. destruct (w_buf s); [congruence|]. destruct (skipn _ _); [congruence|]. reflexivity.
      * intros Q. destruct (G Q). congruence.
  - destruct I as [A B C D E F G H]. assert (NR : ~ In PRefused (p_log s)) by (intros Q; destruct (G Q); contradiction).
    unfold w_close. lg. destruct (w_buf s) as [|y l]; [congruence|]. rewrite andb_false_r in B. split; lg; rewrite ?closes_app, ?pending_app; cbn.
    + split; [discriminate|congruence].
    + lia.
    + rewrite Nat.add_0_r. exact C.
    + discriminate.
    + intros _. rewrite !in_log. auto.
    + rewrite in_log. intros [Q|Q]; [destruct (F Q); auto|discriminate].
    + auto.
    + rewrite !in_log. auto.
Qed.
Lemma inv_close s : Inv s -> Inv (close (log PClose s)).
Proof.
  intros [A B C D E F G H]. unfold close, orig_close. lg. destruct (w_closing s) eqn:W.
  - unfold reader_close. lg. destruct (r_closing s) eqn:RC.
    + split; lg; rewrite ?closes_app; cbn; rewrite ?Nat.add_0_r; try assumption; auto.
      * rewrite B, W. reflexivity.
      * intros Q. destruct (D Q). discriminate.
      * intros _. rewrite !in_log. auto.
      * rewrite in_log. intros [Q|Q]; [split; [assumption|apply G, Q]|discriminate].
      * rewrite !in_log. intros [Q|Q]; [left; auto|discriminate].
    + unfold r_close. split; lg; rewrite ?closes_app, ?pending_app; cbn; rewrite ?Nat.add_0_r; try assumption; auto; try discriminate.
      * rewrite B, W. reflexivity.
      * intros _. rewrite !in_log. auto.
      * rewrite in_log. intros [Q|Q]; [split; [assumption|apply G, Q]|discriminate].
      * rewrite !in_log. intros [Q|Q]; [left; auto|discriminate].
  - cbn in B. assert (NR : ~ In PRefused (p_log s)) by (intros Q; destruct (G Q); discriminate). unfold reader_close, r_close.
    destruct (w_buf s) as [|y l] eqn:BU; cbv zeta; lg; (destruct (r_closing s) eqn:RC); (split; lg; rewrite ?closes_app, ?pending_app; cbn; rewrite ?Nat.add_0_r; try assumption; auto; try discriminate; try lia).
    all: try (intros _; rewrite !in_log; auto; fail).
    all: try (rewrite in_log; intros [Q|Q]; [contradiction|discriminate]).
    all: try (rewrite !in_log; intros [Q|Q]; [left; auto|discriminate]).
    all: try (rewrite BU; assumption).
    all: try (rewrite A, BU; tauto).
    intros Q. destruct (D Q). discriminate.
Qed.
Lemma inv_callback s c q : Inv s -> queue s = c :: q -> Inv (run_callback c (upd_queue q s)).
Proof.
  intros I Q. assert (N : c <> CbWriterLost -> Inv (upd_queue q s)).
  { intros N. destruct I as [A B C D E F G H]. split; lg; try assumption. rewrite <- B, Q. destruct c; cbn; try congruence. }
  destruct c as [|[]|]; cbn [run_callback reader_lost]; try (apply inv_sr, N; discriminate).
  destruct I as [A B C D E F G H]. rewrite Q in B. cbn in B.
  destruct (w_closing s && _) eqn:X; [|lia]. apply andb_true_iff in X as [W X]. destruct (w_buf s) eqn:BU; [|discriminate].
  unfold w_lost. split; lg; rewrite ?closes_app; cbn; try assumption.
  - rewrite A, BU. tauto.
  - rewrite BU, W. cbn. lia.
  - split; [discriminate|lia].
  - rewrite !in_log. intros _. destruct (E W); auto.
  - rewrite in_log. intros [Z|Z]; [auto|discriminate].
  - rewrite in_log. intros [Z|Z]; [rewrite BU; auto|discriminate].
  - rewrite !in_log. intros [Z|Z]; [auto|discriminate].
Qed.
Lemma inv_read s n reused : Inv s -> Inv (read n reused s).
Proof.
  intros I. unfold read. destruct (s_exc s); [apply inv_log; try discriminate; exact I|]. cbv zeta.
  assert (M : forall s, Inv s -> Inv (fst (maybe_resume reused s))). { intros s0 I0. unfold maybe_resume. destruct (_ && _); [apply inv_resume, inv_sr, I0|exact I0]. }
  specialize (M (upd_sr (skipn n (s_buf s)) (s_eof s) false (s_paused s) s) ltac:(apply inv_sr, I)).
  destruct (maybe_resume _ _) as [s1 r]. cbn in M. destruct r; [apply inv_log; try discriminate; exact M|]. destruct (firstn n (s_buf s)); apply inv_log; try discriminate; exact M.
Qed.
Lemma inv_step s s' : Inv s -> step s s' -> Inv s'.
Proof.
  intros I ST. destruct ST as [s b O N|s O|s a s1 SR RD|s a SW PO|s c q Q|s n reused N B|s b a PO|s].
  - apply inv_log; try discriminate. apply inv_kernel, I.
  - apply inv_log; try discriminate. apply inv_kernel, I.
  - assert (I1 : Inv s1). { destruct RD; try exact I; [apply inv_kernel, I|]. apply inv_log; try discriminate. exact I. }
    destruct a; cbn [read_ready]; [apply inv_feed, I1|exact I1| |apply inv_rclose, I1].
    apply inv_soon; [|discriminate]. apply inv_soon; [|discriminate]. apply inv_rclosing, I1.
  - apply inv_write_ready; assumption.
  - apply inv_callback; assumption.
  - apply inv_read, I.
  - apply inv_write; assumption.
  - apply inv_close, I.
Qed.
Lemma inv_start : Inv ps0.
Proof. split; cbn; try tauto; try discriminate; try (split; congruence); auto. Qed.
Lemma inv_reachable s : reachable s -> Inv s.
Proof. induction 1; [apply inv_start|eapply inv_step; eassumption]. Qed.
