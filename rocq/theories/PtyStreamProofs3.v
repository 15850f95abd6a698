(** The end of the output of a pseudo-terminal is seen. *)
From Verif Require Export PtyStreamProofs2.
Open Scope Z_scope.

Definition eof_cb (c : callback) : Prop := c = CbEof \/ c = CbReaderLost NoError \/ c = CbReaderLost EIO.
Record Fin (s : ps) : Prop := {
  e_closed : r_closing s = true -> k_open s = false /\ k_out s = [] /\ (s_eof s = true \/ exists c, In c (queue s) /\ eof_cb c);
  e_eof : s_eof s = true \/ (exists c, In c (queue s) /\ eof_cb c) -> r_closing s = true;
  e_sel : r_closing s = false -> sel_r s = negb (r_paused s);
  e_paused : r_closing s = false -> r_paused s = true -> s_paused s = true;
  e_big : s_paused s = true -> LIMIT < size (s_buf s);
  e_exc : s_exc s = false /\ ~ In (CbReaderLost OtherOSError) (queue s);
  e_end : In PEnd (p_log s) -> s_eof s = true /\ s_buf s = [] }.
(** Nobody has closed the streams, and no read or write has failed. *)
Definition calm (l : list pev) : Prop := ~ In PRefused l /\ ~ In PClose l /\ ~ In PBroken l.
Lemma calm_step s s' : step s s' -> calm (p_log s') -> calm (p_log s).
Proof. intros ST (A & B & C). repeat split; eapply step_keeps; eassumption. Qed.
Lemma calm_open s : Inv s -> calm (p_log s) -> w_closing s = false /\ fd_open s = true /\ pending (queue s) = 0%nat.
Proof.
  intros I (A & B & _). assert (W : w_closing s = false). { destruct (w_closing s) eqn:W; [|reflexivity]. destruct (i_why _ I W); contradiction. }
  pose proof (i_lost _ I) as L. rewrite W in L. cbn in L. split; [exact W|]. split; [|lia]. apply (i_fd _ I). lia.
Qed.
Lemma fin_log s e : Fin s -> e <> PEnd -> Fin (log e s).
Proof. intros [A B C D E F G] N. split; lg; try assumption. rewrite in_log. intros [H|H]; [auto|congruence]. Qed.
Lemma fin_write s b c : Fin s -> Fin (upd_wt b c s).
Proof. intros [A B C D E F G]. split; assumption. Qed.
Lemma fin_sel_w s b : Fin s -> Fin (upd_sel_w b s).
Proof. intros [A B C D E F G]. split; assumption. Qed.
Lemma size_nil : size [] = 0.
Proof. reflexivity. Qed.
Lemma fin_closing s l : Fin s -> r_closing s = false -> k_open s = false -> k_out s = [] -> (forall c, In c l -> eof_cb c) -> (exists c, In c l) ->
  Fin (upd_queue (queue s ++ l) (upd_sel_r false (upd_rt true (r_paused s) s))).
Proof.
  intros [A B C D E [F F'] G] RC KO KE L (c & H). split; lg; auto.
  - intros _. split; [exact KO|]. split; [exact KE|]. right. exists c. split; [ins|auto].
  - discriminate.
  - split; [exact F|]. rewrite in_app_iff. intros [Q|Q]; [contradiction|]. destruct (L _ Q) as [X|[X|X]]; discriminate.
Qed.
Lemma fin_step s s' : Inv s -> step s s' -> calm (p_log s') -> Fin s -> Fin s'.
Proof.
  intros I ST CA IN. pose proof (calm_step _ _ ST CA) as CA0. destruct (calm_open _ I CA0) as (WC & FO & PE).
  destruct ST as [s b OP N|s OP|s a s1 SR RD|s a SW PO|s c q Q|s n reused N B|s b a PO|s].
  - apply fin_log; [|discriminate]. destruct IN as [A B C D E F G]. split; lg; try assumption. intros R. destruct (A R). congruence.
  - apply fin_log; [|discriminate]. destruct IN as [A B C D E F G]. split; lg; try assumption. intros R. destruct (A R). congruence.
  - destruct (i_selr _ I SR) as [RC RP]. destruct RD as [b rest _ K NB| |_ K1 K2|_ K1 K2| |a X]; cbn [read_ready].
    + destruct IN as [A B C D E F G]. assert (NE : s_eof s = false) by (destruct (s_eof s); [rewrite B in RC by auto; discriminate|reflexivity]).
      assert (SP : s_paused s = false \/ s_paused s = true) by (destruct (s_paused s); auto).
      assert (GP : ~ In PEnd (p_log s)) by (intros H; destruct (G H); congruence).
      unfold feed_data. cbv zeta. lg. destruct (s_paused s) eqn:SPE; cbn [negb andb].
      * split; lg; try assumption; try (intros; contradiction); try (intros R; congruence).
        intros _. specialize (E eq_refl). unfold size in *. rewrite app_length. lia.
      * destruct (Z.ltb_spec (2 * LIMIT) (size (s_buf s ++ b))) as [L|L].
        -- unfold pause_reading. lg. rewrite RC, RP. cbn [orb]. split; lg; try assumption; try (intros; contradiction); try (intros R; congruence); auto.
           ++ rewrite <- RC. exact B.
           ++ intros _. unfold LIMIT in *. lia.
        -- split; lg; try assumption; try (intros; contradiction); try (intros R; congruence).
    + exact IN.
    + assert (U : call_soon (CbReaderLost NoError) (call_soon CbEof (upd_sel_r false (upd_rt true (r_paused s) s))) = upd_queue (queue s ++ [CbEof; CbReaderLost NoError]) (upd_sel_r false (upd_rt true (r_paused s) s))).
      { unfold call_soon. lg. unfold upd_queue. lg. now rewrite <- app_assoc. }
      rewrite U. apply fin_closing; try assumption; [|eexists; left; reflexivity]. intros c [<-|[<-|[]]]; unfold eof_cb; auto.
    + apply (fin_closing s [CbReaderLost EIO]); try assumption; [|eexists; left; reflexivity]. intros c [<-|[]]; unfold eof_cb; auto.
    + exfalso. destruct CA as (_ & _ & X). apply X. rewrite ready_log. lg. ins.
    + congruence.
  - destruct a as [n|]; cbn [write_ready] in *; cbv zeta in *; [|exfalso; destruct CA as (X & _); apply X; unfold w_close; lg; destruct (w_buf s); lg; ins].
    rewrite WC in *. destruct (_ =? _)%nat; [apply fin_sel_w|]; apply fin_write, fin_log; try exact IN; discriminate.
  - assert (RC : eof_cb c -> r_closing s = true) by (intros X; apply (e_eof _ IN); right; exists c; rewrite Q; split; [now left|exact X]).
    assert (K : forall s', eof_cb c -> s' = upd_sr (s_buf s) true (s_exc s) (s_paused s) (upd_queue q s) -> Fin s').
    { intros s' X ->. specialize (RC X). destruct IN as [A B C D E [F F'] G]. rewrite Q in *. split; lg; auto.
      - intros _. destruct (A RC) as (A1 & A2 & _). auto.
      - split; [exact F|]. intros Y. apply F'. now right.
      - intros H. destruct (G H). auto. }
    destruct c as [|[]|]; cbn [run_callback reader_lost].
    + apply K; [now left|reflexivity].
    + apply K; [right; now left|reflexivity].
    + apply K; [right; now right|reflexivity].
    + exfalso. destruct (e_exc _ IN) as [_ X]. apply X. rewrite Q. now left.
    + exfalso. rewrite Q in PE. cbn in PE. lia.
  - destruct (e_exc _ IN) as [X X']. destruct CA0 as (NR & _). destruct (read_calm n reused s I NR X) as (s1 & RE & L & SB & KO & KP & S1). rewrite RE in *. clear RE.
    assert (F1 : Fin s1).
    { assert (GE : In PEnd (p_log s1) -> s_eof s = true /\ skipn n (s_buf s) = []). { rewrite L. intros H. destruct (e_end _ IN H) as [Y Z]. rewrite Z, skipn_nil. auto. }
      subst s1. unfold maybe_resume in *. lg. destruct IN as [A B' C D E F G]. destruct (s_paused s) eqn:SP; cbn [andb] in *.
      - destruct (Z.leb_spec (size (skipn n (s_buf s))) LIMIT) as [LE|LE].
        + unfold resume_reading in *. lg. destruct (r_closing s) eqn:RC; cbn [orb negb] in *.
          * cbn [fst] in *. split; lg; try assumption; try discriminate; auto; intros; congruence.
          * destruct (r_paused s) eqn:RP; cbn [negb] in *; [rewrite FO in *|]; cbn [fst] in *; split; lg; try assumption; try discriminate; auto; try congruence. { rewrite RC. exact B'. } { rewrite RP. auto. }
        + cbn [fst] in *. split; lg; try assumption; auto.
      - cbn [fst] in *. split; lg; try assumption; auto; discriminate. }
    destruct (firstn n (s_buf s)) as [|z l] eqn:FN; [|apply fin_log; [exact F1|discriminate]].
    assert (BE : s_buf s = []) by (destruct n; [congruence|]; destruct (s_buf s); [reflexivity|discriminate]).
    destruct F1 as [A B' C D E F G]. split; lg; try assumption. intros _. rewrite SB, BE, skipn_nil. split; [|reflexivity].
    assert (EQ : s_eof s1 = s_eof s). { subst s1. unfold maybe_resume, resume_reading. lg. destruct (_ && _); [|reflexivity]. cbv zeta. lg. destruct (_ || _); [reflexivity|]. destruct (fd_open s); [reflexivity|]. destruct reused; reflexivity. }
    rewrite EQ. destruct B as [B|[B|B]]; [congruence|exact B|congruence].
  - unfold write in *. destruct b as [|z b]; [apply fin_log; [exact IN|discriminate]|]. lg. rewrite WC in *. destruct (w_buf s) eqn:BU; [|apply fin_write, fin_log; [exact IN|discriminate]].
    destruct a as [n|]; [|exfalso; destruct CA as (X & _); apply X; unfold w_close; lg; rewrite BU; lg; ins]. cbv zeta in *.
    destruct (_ =? _)%nat; [|apply fin_sel_w, fin_write]; (apply fin_log; [apply fin_log; [exact IN|discriminate]|discriminate]).
  - exfalso. destruct CA as (_ & X & _). apply X. rewrite close_log. lg. ins.
Qed.
Lemma fin_reachable s : reachable s -> calm (p_log s) -> Fin s.
Proof.
  induction 1 as [|s s' R IH ST]; intros C; [|eapply fin_step; [apply inv_reachable, R|exact ST|exact C|apply IH; eapply calm_step; eassumption]].
  split; cbn; try discriminate; auto. intros [Q|(c & [] & _)]; discriminate.
Qed.
