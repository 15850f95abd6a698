(** C28, C30, C31: harvest reacts at once.  The theorems of HarvestProps say what
    holds for every execution; these say that the reaction to a failure, a timeout
    or a cancellation needs nothing else to happen first: there is an execution in
    which it is the next thing. *)
From Verif Require Import AsyncModel AsyncSpec AsyncProofs HarvestModel HarvestSpec HarvestProofs HarvestProofs2.

Section S.
Context {X K V XE : Type}.
Context (xstep : X -> XE -> option (X * bool)).
Context (finish : X -> task K V -> tout V -> option X).
Notation world := (world X K V).
Notation M := (@M X K V).

(** A task that has been asked to stop can end by being cancelled. *)
Definition cooperative : Prop := forall x t, (t_creq t > 0)%nat -> finish x t TCancelled = Some x.
Definition unfinished (w : world) (l : list nat) : list nat := filter (fun i => negb (task_done w i)) l.
Definition known (w : world) (l : list nat) : Prop := forall i, In i l -> nth_error (w_tasks w) i <> None.

Lemma run_app mode target evs1 : forall c evs2 c1, wait_run xstep finish mode target c evs1 = Some c1 ->
  wait_run xstep finish mode target c (evs1 ++ evs2) = wait_run xstep finish mode target c1 evs2.
Proof.
  induction evs1 as [|ev evs1 IH]; intros c evs2 c1 H; [injection H as <-; reflexivity|]. cbn [wait_run app] in *.
  destruct (wait_step xstep finish mode target c ev) as [c2|]; [|discriminate]. now apply IH.
Qed.
Lemma unfinished_in w l i : In i (unfinished w l) <-> In i l /\ task_done w i = false.
Proof. unfold unfinished. rewrite filter_In. now destruct (task_done w i). Qed.

(** Asking the tasks to stop. *)
Lemma requests p : forall w : world, NoDup p -> known w p -> (forall i, In i p -> task_done w i = false) ->
  exists w1, for_ p (cancel_task (X := X)) w (Ok tt) w1 /\ w_hist w1 = w_hist w ++ map HReq p
  /\ (forall j, task_out w1 j = task_out w j) /\ (forall j, nth_error (w_tasks w) j <> None -> nth_error (w_tasks w1) j <> None)
  /\ (forall j t, nth_error (w_tasks w1) j = Some t -> In j p \/ (exists t0, nth_error (w_tasks w) j = Some t0 /\ (t_creq t0 > 0)%nat) -> (t_creq t > 0)%nat).
Proof.
  induction p as [|i p IH]; intros w ND KN UN.
  - exists w. split; [split; reflexivity|]. split; [cbn [map]; symmetry; apply app_nil_r|]. split; [auto|]. split; [auto|].
    intros j t H [[]|(t0 & H0 & C)]. rewrite H0 in H. injection H as <-. exact C.
  - inversion ND as [|? ? NI ND']; subst.
    assert (W : req w i = mk_world (upd_nth (w_tasks w) i (fun t => mk_task (t_kind t) (t_out t) (S (t_creq t)))) (w_x w) (w_hist w ++ [HReq i])).
    { unfold req. rewrite UN; [reflexivity|now left]. }
    assert (KN' : forall j, nth_error (w_tasks w) j <> None -> nth_error (w_tasks (req w i)) j <> None).
    { intros j H. rewrite W. cbn. apply nth_error_Some. rewrite length_upd. now apply nth_error_Some. }
    destruct (IH (req w i)) as (w1 & F & H & O & N & C); auto.
    + intros j Hj. apply KN', KN. now right.
    + intros j Hj. rewrite req_task_done. apply UN. now right.
    + exists w1. split; [eapply b_bind; [split; reflexivity|exact F]|]. split; [rewrite H, W; cbn [w_hist map]; rewrite <- app_assoc; reflexivity|].
      split; [intros j; rewrite O; apply req_task_out|]. split; [auto|].
      intros j t Hj D. apply (C j t Hj). destruct D as [[<-|D]|(t0 & H0 & D)]; [|now left|].
      * right. destruct (nth_error (w_tasks w) i) as [t0|] eqn:E; [|elim (KN i); [now left|exact E]].
        eexists. split; [rewrite W; cbn; apply nth_upd_same; exact E|cbn; lia].
      * right. rewrite W. cbn. destruct (Nat.eq_dec i j) as [<-|NE].
        -- eexists. split; [apply nth_upd_same; exact H0|cbn; lia].
        -- exists t0. rewrite nth_upd_other by exact NE. auto.
Qed.
(** They end, one after the other. *)
Lemma endings (CO : cooperative) mode s p : forall w : world, NoDup p ->
  (forall i, In i p -> exists t, nth_error (w_tasks w) i = Some t /\ t_out t = None /\ (t_creq t > 0)%nat) ->
  exists w1, wait_run xstep finish mode None (w, s) (map (fun i => WEnv (EDone i TCancelled)) p) = Some (w1, s)
  /\ w_hist w1 = w_hist w ++ map (fun i => HDone i TCancelled) p
  /\ (forall j, task_out w1 j = if in_dec Nat.eq_dec j p then Some TCancelled else task_out w j).
Proof.
  induction p as [|i p IH]; intros w ND T.
  - exists w. cbn. rewrite app_nil_r. auto.
  - inversion ND as [|? ? NI ND']; subst. destruct (T i (or_introl eq_refl)) as (t & E & O & C).
    set (w0 := mk_world (upd_nth (w_tasks w) i (fun t => mk_task (t_kind t) (Some (@TCancelled V)) (t_creq t))) (w_x w) (w_hist w ++ [HDone i TCancelled])).
    assert (ST : wait_step xstep finish mode None (w, s) (WEnv (EDone i TCancelled)) = Some (w0, s)).
    { cbn. rewrite E, O, (CO _ _ C). reflexivity. }
    destruct (IH w0 ND') as (w1 & R & H & OUT).
    { intros j Hj. assert (i <> j) by (intros ->; contradiction). destruct (T j (or_intror Hj)) as (t' & A & B). exists t'. cbn. now rewrite nth_upd_other. }
    exists w1. split; [cbn [map wait_run]; rewrite ST; exact R|]. split; [rewrite H; cbn; now rewrite <- app_assoc|].
    intros j. rewrite OUT. cbn [in_dec]. destruct (in_dec Nat.eq_dec j p) as [I1|I1], (in_dec Nat.eq_dec j (i :: p)) as [I2|I2]; auto.
    + elim I2. now right.
    + destruct I2 as [<-|I2]; [|contradiction]. unfold task_out. cbn. now rewrite (nth_upd_same _ _ _ _ E).
    + unfold task_out. cbn. rewrite nth_upd_other; [reflexivity|]. intros ->. apply I2. now left.
Qed.
(** _cancel_wait, when the tasks obey. *)
Lemma cancel_wait_obeyed (CO : cooperative) (w : world) l : NoDup l -> l <> [] -> known w l ->
  exists w1, cancel_wait xstep finish l false w (Ok tt) w1
  /\ w_hist w1 = w_hist w ++ map HReq (unfinished w l) ++ map (fun i => HDone i TCancelled) (unfinished w l)
  /\ (forall j, task_out w1 j = if in_dec Nat.eq_dec j (unfinished w l) then Some TCancelled else task_out w j).
Proof.
  intros ND NE KN. set (p := unfinished w l).
  assert (PND : NoDup p) by now apply NoDup_filter.
  assert (PK : known w p) by (intros i Hi; apply KN; now apply unfinished_in in Hi).
  destruct (requests p w PND PK) as (w1 & F & H1 & O1 & N1 & C1); [intros i Hi; now apply unfinished_in in Hi|].
  (* cancel() of a finished task does nothing *)
  assert (F' : for_ l (cancel_task (X := X)) w (Ok tt) w1).
  { clear -F. subst p. unfold unfinished in F. revert F.
    assert (G : forall l (w u w1 : world), (forall i, task_done u i = task_done w i) -> for_ (filter (fun i => negb (task_done w i)) l) (cancel_task (X := X)) u (Ok tt) w1 -> for_ l (cancel_task (X := X)) u (Ok tt) w1).
    { clear. induction l as [|i l IH]; intros w u w1 E F; [exact F|]. cbn [filter] in F. destruct (task_done w i) eqn:D; cbn [negb] in F.
      - eapply b_bind; [split; reflexivity|]. assert (R : req u i = u) by (unfold req; now rewrite E, D). rewrite R. now apply (IH w).
      - cbn [for_] in F. destruct F as [(a & u1 & [_ ->] & F)|(e & [Q _] & _)]; [|discriminate]. eapply b_bind; [split; reflexivity|]. apply (IH w); [|exact F].
        intros j. now rewrite req_task_done. }
    now apply G. }
  assert (T : forall i, In i p -> exists t, nth_error (w_tasks w1) i = Some t /\ t_out t = None /\ (t_creq t > 0)%nat).
  { intros i Hi. destruct (nth_error (w_tasks w1) i) as [t|] eqn:E; [|elim (N1 i (PK i Hi)); exact E]. exists t. split; [reflexivity|].
    split; [|apply (C1 i t E); now left]. apply unfinished_in in Hi as [_ D]. unfold task_done in D. rewrite <- O1 in D. unfold task_out in D. rewrite E in D. now destruct (t_out t). }
  set (s := mk_wst (nodup Nat.eq_dec l) true false false).
  destruct (endings CO ALL_COMPLETED s p w1 PND T) as (w2 & R & H2 & O2).
  assert (AD : forall i, In i l -> task_done w2 i = true).
  { intros i Hi. unfold task_done. rewrite O2. destruct (in_dec Nat.eq_dec i p) as [|NI]; [reflexivity|]. rewrite O1. destruct (task_out w i) eqn:Q; [reflexivity|].
    elim NI. apply unfinished_in. split; [exact Hi|]. unfold task_done. now rewrite Q. }
  destruct (wait_progress xstep finish ALL_COMPLETED w2 (nodup Nat.eq_dec l) s eq_refl (NoDup_nodup _ _)) as (evs & w3 & s' & R' & FI & FA & ->).
  { intros Q. destruct l as [|i l]; [congruence|]. assert (I : In i (nodup Nat.eq_dec (i :: l))) by (apply nodup_In; now left). rewrite Q in I. destruct I. }
  { intros i Hi. apply AD. now apply nodup_In in Hi. }
  exists w2. split; [|split].
  - apply b_try. eapply b_bind; [exact F'|]. eapply b_bind.
    + eapply b_wait with (evs := map (fun i => WEnv (EDone i TCancelled)) p ++ evs); [exact NE|rewrite (run_app _ _ _ _ _ _ R); exact R'|].
      assert (CA : s_canc s' = false).
      { clear -R' FA. assert (G : forall es s0 w' s', wait_run xstep finish ALL_COMPLETED None (w2, s0) es = Some (w', s') -> Forall (fun ev => exists i, ev = WCallback i) es -> s_canc s' = s_canc s0).
        { induction es as [|ev es IH]; intros s0 w' s1 H F; [cbn in H; congruence|]. inversion F as [|? ? (i & ->) F']; subst. cbn [wait_run wait_step] in H.
          destruct (existsb (Nat.eqb i) (s_cbs s0) && task_done w2 i); [|discriminate]. destruct (_ || _) in H; apply IH in H; auto. }
        now apply G in R'. }
      rewrite CA. split; [exact FI|reflexivity].
    + cbn [snd]. assert (E : pending_of w2 l = []).
      { apply pending_nil. exact AD. }
      rewrite E. split; reflexivity.
  - rewrite H2, H1, app_assoc. reflexivity.
  - intros j. rewrite O2, O1. reflexivity.
Qed.

Lemma ensure_tasks l (w : world) : ensure_futures (X := X) (V := V) (K := K) (map AwTask l) w (Ok l) w.
Proof. induction l as [|i l IH]; [split; reflexivity|]. eapply b_bind; [split; reflexivity|]. eapply b_bind; [exact IH|split; reflexivity]. Qed.
Lemma consume_ok (w : world) l : (forall i, In i l -> task_done w i = true) -> consume_exceptions (X := X) l w (Ok tt) w.
Proof.
  induction l as [|i l IH]; intros D; [split; reflexivity|]. eapply b_bind; [|apply IH; intros j Hj; apply D; now right].
  eapply b_bind; [split; reflexivity|]. rewrite (D i (or_introl eq_refl)). split; reflexivity.
Qed.
Lemma results_failed (w : world) l : (forall i, In i l -> task_done w i = true) -> (exists i e, In i l /\ task_out w i = Some (TFail e)) ->
  exists e, first_failure w l e /\ for_ l (fun i => bindM getM (fun w : world => match task_out w i with Some TCancelled => ret tt | _ => bindM (get_task_result i) (fun _ => ret tt) end)) w (Err e) w.
Proof.
  induction l as [|i l IH]; intros D (k & e & Ik & Fk); [destruct Ik|].
  assert (CONT : (forall e', task_out w i <> Some (TFail e')) -> (forall e0, first_failure w l e0 -> first_failure w (i :: l) e0) /\ exists k e, In k l /\ task_out w k = Some (TFail e)).
  { intros N. split.
    - intros e0 (pre & j & post & -> & A & B). exists (i :: pre), j, post. split; [reflexivity|]. split; [exact A|]. intros j' e' [<-|Hj]; [apply N|now apply B].
    - destruct Ik as [->|Ik]; [now elim (N e)|eauto]. }
  specialize (D i (or_introl eq_refl)) as Di. unfold task_done in Di. destruct (task_out w i) as [[v|e0|]|] eqn:Oi; [| | |discriminate].
  - destruct CONT as (C1 & C2); [discriminate|]. destruct IH as (e1 & F & R); [intros j Hj; apply D; now right|exact C2|]. exists e1. split; [now apply C1|].
    eapply b_bind; [|exact R]. eapply b_bind; [split; reflexivity|]. rewrite Oi. eapply b_bind with (a := v); [|split; reflexivity]. eapply b_bind; [split; reflexivity|]. rewrite Oi. split; reflexivity.
  - exists e0. split; [exists [], i, l; split; [reflexivity|]; split; [exact Oi|intros j e' []]|]. apply b_bind_err. eapply b_bind; [split; reflexivity|]. rewrite Oi. apply b_bind_err.
    eapply b_bind; [split; reflexivity|]. rewrite Oi. split; reflexivity.
  - destruct CONT as (C1 & C2); [discriminate|]. destruct IH as (e1 & F & R); [intros j Hj; apply D; now right|exact C2|]. exists e1. split; [now apply C1|].
    eapply b_bind; [|exact R]. eapply b_bind; [split; reflexivity|]. rewrite Oi. split; reflexivity.
Qed.
(** What follows the first wait of harvest_wait: stopping the unfinished tasks. *)
Lemma stop_rest (CO : cooperative) (w : world) l : NoDup l -> known w l ->
  exists w1, match unfinished w l with [] => ret tt | pending => cancel_wait xstep finish pending false end w (Ok tt) w1
  /\ w_hist w1 = w_hist w ++ map HReq (unfinished w l) ++ map (fun i => HDone i TCancelled) (unfinished w l)
  /\ (forall j, task_out w1 j = if in_dec Nat.eq_dec j (unfinished w l) then Some TCancelled else task_out w j)
  /\ (forall i, In i l -> task_done w1 i = true).
Proof.
  intros ND KN.
  assert (LAST : forall w1 : world, (forall j, task_out w1 j = if in_dec Nat.eq_dec j (unfinished w l) then Some TCancelled else task_out w j) -> forall i, In i l -> task_done w1 i = true).
  { intros w1 O i Hi. unfold task_done. rewrite O. destruct (in_dec Nat.eq_dec i (unfinished w l)) as [|NI]; [reflexivity|].
    destruct (task_out w i) eqn:Q; [reflexivity|]. elim NI. apply unfinished_in. split; [exact Hi|]. unfold task_done. now rewrite Q. }
  destruct (unfinished w l) as [|p ps] eqn:U.
  - exists w. split; [split; reflexivity|]. split; [symmetry; apply app_nil_r|]. split; [reflexivity|]. apply LAST. reflexivity.
  - rewrite <- U in *. assert (UU : unfinished w (unfinished w l) = unfinished w l).
    { unfold unfinished. induction l as [|i l' IH]; [reflexivity|]. cbn. destruct (task_done w i) eqn:D; cbn; [|rewrite D; cbn; f_equal]; clear -l'; (induction l' as [|j l' IH]; [reflexivity|]; cbn; destruct (task_done w j) eqn:D; cbn; [exact IH|rewrite D; cbn; now f_equal]). }
    destruct (cancel_wait_obeyed CO w (unfinished w l)) as (w1 & R & H & O); [now apply NoDup_filter|congruence|intros i Hi; apply KN; now apply unfinished_in in Hi|].
    rewrite UU in *. exists w1. split; [rewrite U; rewrite U in R; exact R|]. split; [exact H|]. split; [exact O|]. now apply LAST.
Qed.
Lemma pending_unfinished (w : world) l : NoDup l -> pending_of w l = unfinished w l.
Proof. intros ND. unfold pending_of, unfinished. rewrite nodup_fixed_point by exact ND. reflexivity. Qed.

Lemma react_failure (CO : cooperative) (w : world) l i e tmo cf : NoDup l -> known w l -> In i l -> task_out w i = Some (TFail e) ->
  exists w' e', harvest xstep finish (map AwTask l) tmo cf w (Err e') w' /\ first_failure w' l e'
  /\ w_hist w' = w_hist w ++ map HReq (unfinished w l) ++ map (fun j => HDone j TCancelled) (unfinished w l)
  /\ (forall j, task_done w j = true -> task_out w' j = task_out w j).
Proof.
  intros ND KN Hi Fi. destruct (stop_rest CO w l ND KN) as (w1 & R & H & O & AD).
  assert (KE : forall j, task_done w j = true -> task_out w1 j = task_out w j).
  { intros j D. rewrite O. destruct (in_dec Nat.eq_dec j (unfinished w l)) as [I|]; [|reflexivity]. apply unfinished_in in I as [_ I]. congruence. }
  assert (FF : exists k e, In k l /\ task_out w1 k = Some (TFail e)).
  { exists i, e. split; [exact Hi|]. rewrite KE; [exact Fi|]. unfold task_done. now rewrite Fi. }
  destruct (results_failed w1 l AD FF) as (e' & F & RR). exists w1, e'. split; [|auto].
  eapply b_bind; [apply ensure_tasks|]. eapply b_bind; [|eapply b_bind; [apply consume_ok; exact AD|exact RR]].
  eapply b_bind.
  - apply b_try. eapply b_bind.
    + eapply b_wait with (evs := [WCallback i]); [intros ->; destruct Hi| |].
      * cbn [wait_run wait_step s_cbs]. assert (E : existsb (Nat.eqb i) (nodup Nat.eq_dec l) && task_done w i = true).
        { unfold task_done. rewrite Fi. rewrite andb_true_r. apply existsb_exists. exists i. split; [now apply nodup_In|apply Nat.eqb_refl]. }
        rewrite E, Fi. cbn [out_failed]. rewrite orb_true_r. reflexivity.
      * split; reflexivity.
    + eapply b_bind; split; reflexivity.
  - cbn [fst snd]. rewrite pending_unfinished by exact ND. eapply b_bind; [exact R|].
    eapply b_bind; [split; reflexivity|]. eapply b_bind; [assert (E : forallb (task_done w1) l = true) by (apply forallb_forall; exact AD); rewrite E; split; reflexivity|].
    assert (T : time_expired w (filter (task_done w) (nodup Nat.eq_dec l)) (unfinished w l) = false).
    { unfold time_expired. assert (I : In i (filter (task_done w) (nodup Nat.eq_dec l))) by (apply filter_In; split; [now apply nodup_In|]; unfold task_done; now rewrite Fi).
      destruct (filter (task_done w) (nodup Nat.eq_dec l)) as [|a b] eqn:D; [destruct I|]. rewrite <- D in *. destruct (unfinished w l); [reflexivity|]. apply negb_false_iff. apply existsb_exists. exists i. split; [exact I|]. now rewrite Fi. }
    rewrite T. split; reflexivity.
Qed.
Lemma react_timeout (CO : cooperative) (w : world) l cf : NoDup l -> known w l -> unfinished w l <> [] ->
  (forall i, In i l -> out_failed (task_out w i) = false) ->
  exists w', harvest xstep finish (map AwTask l) true cf w (Err TimeoutError) w'
  /\ w_hist w' = w_hist w ++ HTimer :: map HReq (unfinished w l) ++ map (fun j => HDone j TCancelled) (unfinished w l)
  /\ (forall j, task_done w j = true -> task_out w' j = task_out w j).
Proof.
  intros ND KN UN NF. set (wt := mk_world (w_tasks w) (w_x w) (w_hist w ++ [HTimer])).
  assert (U : unfinished wt l = unfinished w l) by reflexivity.
  destruct (stop_rest CO wt l ND KN) as (w1 & R & H & O & AD). rewrite U in *.
  exists w1. split; [|split; [rewrite H; cbn; rewrite <- app_assoc; reflexivity|]].
  2:{ intros j D. rewrite O. destruct (in_dec Nat.eq_dec j (unfinished w l)) as [I|]; [|reflexivity]. apply unfinished_in in I as [_ I]. congruence. }
  eapply b_bind; [apply ensure_tasks|]. apply b_bind_err. eapply b_bind.
  - apply b_try. eapply b_bind.
    + eapply b_wait with (evs := [WTimer]); [intros ->; now apply UN|reflexivity|]. split; reflexivity.
    + eapply b_bind; split; reflexivity.
  - cbn [fst snd]. rewrite pending_unfinished by exact ND. fold wt. rewrite U. eapply b_bind; [exact R|].
    eapply b_bind; [split; reflexivity|]. eapply b_bind; [assert (E : forallb (task_done w1) l = true) by (apply forallb_forall; exact AD); rewrite E; split; reflexivity|].
    assert (T : time_expired wt (filter (task_done wt) (nodup Nat.eq_dec l)) (unfinished w l) = true).
    { unfold time_expired. destruct (filter (task_done wt) (nodup Nat.eq_dec l)) as [|a b] eqn:D; [reflexivity|]. rewrite <- D. destruct (unfinished w l); [congruence|]. apply negb_true_iff.
      destruct (existsb _ _) eqn:E; [|reflexivity]. apply existsb_exists in E as (k & Ik & Fk). apply filter_In in Ik as [Ik _]. apply nodup_In in Ik. rewrite (NF k Ik : out_failed (task_out wt k) = false) in Fk. discriminate. }
    rewrite T. eapply b_bind; [apply consume_ok; exact AD|split; reflexivity].
Qed.
Lemma react_cancel (CO : cooperative) (w : world) l tmo ec x' : NoDup l -> known w l -> l <> [] -> xstep (w_x w) ec = Some (x', true) ->
  exists w', harvest xstep finish (map AwTask l) tmo false w (Err CancelledError) w'
  /\ w_hist w' = w_hist w ++ HCancel :: map HReq (unfinished w l) ++ map (fun j => HDone j TCancelled) (unfinished w l)
  /\ (forall j, task_done w j = true -> task_out w' j = task_out w j).
Proof.
  intros ND KN NE XS. set (wc := mk_world (w_tasks w) x' (w_hist w ++ [HCancel])).
  assert (U : unfinished wc l = unfinished w l) by reflexivity.
  destruct (cancel_wait_obeyed CO wc l ND NE KN) as (w1 & R & H & O). rewrite U in *.
  assert (AD : forall i, In i l -> task_done w1 i = true).
  { intros i Hi. unfold task_done. rewrite O. destruct (in_dec Nat.eq_dec i (unfinished w l)) as [|NI]; [reflexivity|].
    destruct (task_out wc i) eqn:Q; [reflexivity|]. elim NI. apply unfinished_in. split; [exact Hi|]. unfold task_done. change (task_out w i) with (task_out wc i). now rewrite Q. }
  exists w1. split; [|split; [rewrite H; cbn; rewrite <- app_assoc; reflexivity|]].
  2:{ intros j D. rewrite O. destruct (in_dec Nat.eq_dec j (unfinished w l)) as [I|]; [|reflexivity]. apply unfinished_in in I as [_ I]. congruence. }
  eapply b_bind; [apply ensure_tasks|]. apply b_bind_err. apply b_bind_err. eapply b_try_err with (e := CancelledError); [|reflexivity|].
  - apply b_bind_err. eapply b_wait with (evs := [WEnv (EX ec)]); [exact NE|cbn; rewrite XS; reflexivity|]. reflexivity.
  - eapply b_bind; [exact R|]. eapply b_bind; [apply consume_ok; exact AD|split; reflexivity].
Qed.
End S.

(** ** C28 *)
(** A task has failed: harvest need not wait for any other task, nothing more has
    to happen.  The next thing can be that every unfinished task is asked to stop;
    if they obey, harvest raises the exception.  For every list of tasks in any
    state, with and without a timeout. *)
Theorem c28_reacts_at_once : forall X K V XE (xstep : X -> XE -> option (X * bool)) (finish : X -> task K V -> tout V -> option X)
  (w : world X K V) l i e tmo cf, cooperative finish -> NoDup l -> known w l -> In i l -> task_out w i = Some (TFail e) ->
  exists w' e', harvest xstep finish (map AwTask l) tmo cf w (Err e') w' /\ first_failure w' l e'
  /\ w_hist w' = w_hist w ++ map HReq (unfinished w l) ++ map (fun j => HDone j TCancelled) (unfinished w l)
  /\ (forall j, task_done w j = true -> task_out w' j = task_out w j).
Proof. intros. eapply react_failure; eauto. Qed.
Print Assumptions c28_reacts_at_once.
(** ** C30 *)
(** The timer may expire whatever the tasks do; then they are stopped at once. *)
Theorem c30_reacts_at_once : forall X K V XE (xstep : X -> XE -> option (X * bool)) (finish : X -> task K V -> tout V -> option X)
  (w : world X K V) l cf, cooperative finish -> NoDup l -> known w l -> unfinished w l <> [] ->
  (forall i, In i l -> out_failed (task_out w i) = false) ->
  exists w', harvest xstep finish (map AwTask l) true cf w (Err TimeoutError) w'
  /\ w_hist w' = w_hist w ++ HTimer :: map HReq (unfinished w l) ++ map (fun j => HDone j TCancelled) (unfinished w l)
  /\ (forall j, task_done w j = true -> task_out w' j = task_out w j).
Proof. intros. apply react_timeout; auto. Qed.
Print Assumptions c30_reacts_at_once.
(** ** C31 *)
(** The same for a cancellation of harvest, with and without a timeout. *)
Theorem c31_reacts_at_once : forall X K V XE (xstep : X -> XE -> option (X * bool)) (finish : X -> task K V -> tout V -> option X)
  (w : world X K V) l tmo ec x', cooperative finish -> NoDup l -> known w l -> l <> [] -> xstep (w_x w) ec = Some (x', true) ->
  exists w', harvest xstep finish (map AwTask l) tmo false w (Err CancelledError) w'
  /\ w_hist w' = w_hist w ++ HCancel :: map HReq (unfinished w l) ++ map (fun j => HDone j TCancelled) (unfinished w l)
  /\ (forall j, task_done w j = true -> task_out w' j = task_out w j).
Proof. intros. eapply react_cancel; eauto. Qed.
Print Assumptions c31_reacts_at_once.
(** Three tasks: one has failed, one is running, one has a value. *)
Definition some_env (x : unit) (t : task unit nat) (o : tout nat) : option unit := Some tt.
Definition mixed : world unit unit nat := mk_world [mk_task tt (Some (TFail (OtherError 1))) 0; mk_task tt None 0; mk_task tt (Some (TValue 7)) 0] tt [].
Example reacts_applies : cooperative some_env /\ NoDup [1; 0; 2] /\ known mixed [1; 0; 2] /\ task_out mixed 0 = Some (TFail (OtherError 1)) /\ unfinished mixed [1; 0; 2] = [1]
  /\ (forall i, In i [1; 2] -> out_failed (task_out mixed i) = false).
Proof.
  split; [intros [] t _; reflexivity|]. split; [repeat constructor; cbn; intuition discriminate|]. split; [intros i [<-|[<-|[<-|[]]]]; discriminate|].
  split; [reflexivity|]. split; [reflexivity|]. intros i [<-|[<-|[]]]; reflexivity.
Qed.
