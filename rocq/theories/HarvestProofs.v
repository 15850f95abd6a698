From Verif Require Import AsyncModel AsyncSpec AsyncProofs HarvestModel.

Section Proofs.
Context {X K V XE : Type}.
Context (xstep : X -> XE -> option (X * bool)).
Context (finish : X -> task K V -> tout V -> option X).
Notation world := (world X K V).
Notation hist := (list (hev V)).
Notation cancel_waiter := (cancel_waiter xstep finish).
Notation cancel_wait := (cancel_wait xstep finish).
Notation harvest_wait := (harvest_wait xstep finish).
Notation harvest_tasks := (harvest_tasks xstep finish).

(** A stretch of history made of cancel requests only. *)
Definition only_req (h : hist) : Prop := forall e, In e h -> exists i, e = HReq i.
Lemma only_req_cancels h : only_req h -> cancels h = 0%nat.
Proof.
  intros H. destruct (cancels h) eqn:E; [reflexivity|]. assert (Q : In HCancel h) by (apply cancels_In; lia).
  destruct (H _ Q); discriminate.
Qed.
Lemma only_req_done h i : only_req h -> done_in i h = None.
Proof.
  intros H. destruct (done_in i h) eqn:E; [|reflexivity]. apply done_in_In in E. destruct (H _ E); discriminate.
Qed.
Lemma only_req_task_done (w w' : world) h i : extends w h w' -> only_req h -> nth_error (w_tasks w) i <> None ->
  task_out w' i = task_out w i.
Proof. intros E H N. rewrite (ext_out _ _ _ _ E N), (only_req_done h i H). destruct (task_out w i); reflexivity. Qed.

Lemma req_task_out (w : world) i j : task_out (req w i) j = task_out w j.
Proof.
  unfold req. destruct (task_done w i); [reflexivity|]. unfold task_out. cbn [w_tasks].
  destruct (Nat.eq_dec i j) as [<-|D]; [|now rewrite nth_upd_other].
  destruct (nth_error (w_tasks w) i) as [t|] eqn:E.
  - rewrite (nth_upd_same _ _ _ _ E). reflexivity.
  - now rewrite (nth_upd_none _ _ _ E), E.
Qed.
Lemma req_task_done (w : world) i j : task_done (req w i) j = task_done w j.
Proof. unfold task_done. now rewrite req_task_out. Qed.

Lemma for_cancel_spec l : forall (w : world) r w', for_ l cancel_task w r w' ->
  r = Ok tt /\ (forall i, task_out w' i = task_out w i) /\ w_x w' = w_x w /\
  exists h, extends w h w' /\ only_req h /\ (forall i, In (HReq i) h <-> In i l /\ task_done w i = false).
Proof.
  induction l as [|a l IH]; intros w r w' H; cbn [for_] in H.
  - destruct H as [-> ->]. repeat split; auto. exists []. split; [apply extends_refl|]. split; [intros e []|].
    intros i. cbn. tauto.
  - destruct H as [([] & w1 & [_ ->] & H2)|(e & [H1 _] & _)]; [|discriminate].
    destruct (IH _ _ _ H2) as (-> & O & Ex & h & E & Q & N). split; [reflexivity|].
    split; [intros i; now rewrite O, req_task_out|]. split; [now rewrite Ex, req_x|].
    destruct (extends_req w a) as (h0 & E0 & ->).
    eexists. split; [eapply extends_trans; eassumption|]. split.
    + intros ev Hin. apply in_app_or in Hin as [Hin|Hin]; [|auto]. destruct (task_done w a); [destruct Hin|].
      destruct Hin as [<-|[]]. eauto.
    + intros i. rewrite in_app_iff, N, req_task_done. cbn [In]. destruct (task_done w a) eqn:Da; cbn [In].
      * split; [tauto|]. intros [[->|HH] D]; [congruence|auto].
      * split.
        -- intros [[[= ->]|[]]|HH]; tauto.
        -- intros [[->|HH] D]; [left; now left|]. right. auto.
Qed.

Lemma cancel_waiter_spec S wa ra wb : cancel_waiter S wa ra wb -> S <> [] -> exists h, extends wa h wb
     /\ ((ra = Ok tt /\ no_req h /\ ~ In HCancel h /\ forall i, In i S -> task_done wb i = true)
      \/ (ra = Err CancelledError /\ no_req h /\ In HCancel h)
      \/ (ra = Err cancel_failed /\ In HTimer h /\ ~ In HCancel h /\ (exists i, In i S /\ task_done wb i = false)
          /\ (forall i, In i S -> task_done wb i = false -> In (HReq i) h)
          /\ (forall i, In (HReq i) h -> In i S /\ task_done wa i = false))).
Proof.
  intros HH Hne. unfold HarvestModel.cancel_waiter in HH.
    destruct HH as [([d p] & w1 & H1 & H2)|(e & H1 & ->)]; apply await_wait_spec in H1; auto;
      destruct H1 as (h & E & NR & T & D).
    - destruct D as [(Q & _)|(Q & NC & D)]; [discriminate|]. injection Q as -> ->. cbn [snd] in H2.
      destruct (pending_of w1 S) as [|p ps] eqn:P.
      + destruct H2 as [-> ->]. exists h. split; [exact E|]. left. repeat split; auto. now apply pending_nil.
      + destruct H2 as [([] & w2 & H2 & H3)|(e & H2 & ->)]; [destruct H3 as [-> ->]|apply for_cancel_spec in H2; destruct H2; discriminate].
        apply for_cancel_spec in H2 as (_ & O & _ & h2 & E2 & Q2 & N2).
        exists (h ++ h2). split; [eapply extends_trans; eassumption|]. right; right. split; [reflexivity|].
        assert (TI : In HTimer h). { destruct D as [D|[D|(D & _)]]; [discriminate|exact D|discriminate]. }
        split; [apply in_or_app; now left|]. split; [|split; [|split]].
        * intro Q. apply in_app_or in Q as [Q|Q]; [auto|]. destruct (Q2 _ Q); discriminate.
        * assert (Hp : In p (pending_of w1 S)) by (rewrite P; now left). apply in_pending in Hp as [Hp1 Hp2].
          exists p. split; [exact Hp1|]. unfold task_done in *. now rewrite O.
        * intros i Hi Di. apply in_or_app. right. apply N2. rewrite <- P. unfold task_done in Di. rewrite O in Di.
          split; [apply in_pending; split; auto|exact Di].
        * intros i Hin. apply in_app_or in Hin as [Hin|Hin]; [now apply NR in Hin|]. apply N2 in Hin as [Hin Di].
          rewrite <- P in Hin. apply in_pending in Hin as [Hin _]. split; [exact Hin|]. now apply (ext_undone _ _ _ _ E).
    - destruct D as [(Q & HC)|(Q & _)]; [|discriminate]. injection Q as ->. exists h. split; [exact E|]. right; left. auto. 
Qed.

Lemma cancel_wait_spec S cf w r w' : cancel_wait S cf w r w' -> S <> [] ->
  exists h, extends w h w'
  /\ ((r = Ok tt /\ (forall i, In i S -> task_done w' i = true))
      \/ (r = Err CancelledError /\ (cancels h >= 2)%nat)
      \/ (r = Err cancel_failed /\ In HTimer h /\ exists i, In i S /\ task_done w' i = false))
  /\ (cf = false -> forall i, In i S -> task_done w i = false -> In (HReq i) h)
  /\ (cf = true -> (exists i, In (HReq i) h) -> r = Err cancel_failed /\ In HTimer h)
  /\ (forall i, In (HReq i) h -> In i S /\ task_done w i = false)
  /\ (r = Err cancel_failed -> forall i, In i S -> task_done w' i = false -> (reqs i h >= (if cf then 1 else 2))%nat)
  /\ (cf = false -> exists hq hr, h = hq ++ hr /\ only_req hq /\ forall i, In i S -> task_done w i = false -> In (HReq i) hq).
Proof.
  intros H Hne.
  (* the requests *)
  assert (G : forall r1 w1, bindM (if cf then ret tt else for_ S cancel_task) (fun _ => cancel_waiter S) w r1 w1 ->
     exists w0 hq, extends w hq w0 /\ only_req hq /\ (forall i, task_out w0 i = task_out w i)
       /\ (cf = false -> forall i, In (HReq i) hq <-> In i S /\ task_done w i = false)
       /\ (cf = true -> hq = []) /\ cancel_waiter S w0 r1 w1).
  { intros r1 w1 [(a & w0 & H1 & H2)|(e & H1 & ->)].
    - destruct cf.
      + destruct H1 as [_ ->]. exists w, []. split; [apply extends_refl|]. split; [intros ? []|]. repeat split; auto; discriminate.
      + apply for_cancel_spec in H1 as (_ & O & _ & hq & E & Q & N). exists w0, hq. split; [exact E|]. split; [exact Q|]. split; [exact O|]. split; [intros _; exact N|]. split; [discriminate|exact H2].
    - destruct cf; [destruct H1; discriminate|]. apply for_cancel_spec in H1 as (Q & _). discriminate. }
  pose proof (fun wa ra wb H => cancel_waiter_spec S wa ra wb H Hne) as WR.
  assert (TD : forall (w0 : world) i, (forall i, task_out w0 i = task_out w i) -> task_done w0 i = task_done w i).
  { intros w0 i O. unfold task_done. now rewrite O. }
  assert (CNT : forall i (h : hist), In (HReq i) h -> (reqs i h >= 1)%nat) by (intros i h Q; apply reqs_In in Q; lia).
  destruct H as [(a & H1 & ->)|(e & w1 & H1 & H2)].
  - destruct (G _ _ H1) as (w0 & hq & Eq & OQ & O & NF & NT & HW). destruct (WR _ _ _ HW) as (h & E & D).
    destruct a. destruct D as [(_ & NR & NC & AD)|[(Q & _)|(Q & _)]]; try discriminate.
    exists (hq ++ h). split; [eapply extends_trans; eassumption|]. split; [left; auto|].
    split; [intros C i Hi Di; apply in_or_app; left; apply NF; auto|].
    split; [intros C (i & Hi); rewrite (NT C) in Hi; now apply NR in Hi|].
    split; [intros i Hi; apply in_app_or in Hi as [Hi|Hi]; [|now apply NR in Hi]|split; [discriminate|]].
    { destruct cf; [rewrite (NT eq_refl) in Hi; destruct Hi|]. now apply NF. }
    intros C. exists hq, h. split; [reflexivity|]. split; [exact OQ|]. intros i Hi Di. apply NF; auto.
  - destruct (G _ _ H1) as (w0 & hq & Eq & OQ & O & NF & NT & HW). destruct (WR _ _ _ HW) as (h & E & D).
    destruct D as [(Q & _)|[(Q & NR & HC)|(Q & HT & NC & EX & RQ & RS)]]; try discriminate; injection Q as ->.
    + destruct (WR _ _ _ H2) as (h2 & E2 & D2). exists (hq ++ h ++ h2).
      assert (EE : extends w (hq ++ h ++ h2) w') by (eapply extends_trans; [eassumption|eapply extends_trans; eassumption]).
      split; [exact EE|].
      assert (HQR : cf = false -> exists hq0 hr, hq ++ h ++ h2 = hq0 ++ hr /\ only_req hq0 /\ forall i, In i S -> task_done w i = false -> In (HReq i) hq0).
      { intros C. exists hq, (h ++ h2). split; [reflexivity|]. split; [exact OQ|]. intros i Hi Di. apply NF; auto. }
      assert (C1 : (cancels h >= 1)%nat) by (apply cancels_In in HC; lia).
      assert (ND : forall i, task_done w1 i = false -> task_done w i = false).
      { intros i Di. rewrite <- (TD w0 i O). now apply (ext_undone _ _ _ _ E). }
      assert (QS : forall i, In (HReq i) hq -> In i S /\ task_done w i = false).
      { intros i Hi. destruct cf; [rewrite (NT eq_refl) in Hi; destruct Hi|]. now apply NF. }
      destruct D2 as [(-> & NR2 & NC2 & AD)|[(-> & NR2 & HC2)|(-> & HT2 & NC2 & EX2 & RQ2 & RS2)]].
      * split; [auto|]. split; [intros C i Hi Di; apply in_or_app; left; apply NF; auto|].
        split; [|split; [|split; [discriminate|exact HQR]]].
        -- intros C (i & Hi). rewrite (NT C) in Hi. cbn in Hi. apply in_app_or in Hi as [Hi|Hi]; [now apply NR in Hi|now apply NR2 in Hi].
        -- intros i Hi. apply in_app_or in Hi as [Hi|Hi]; [now apply QS|].
           apply in_app_or in Hi as [Hi|Hi]; [now apply NR in Hi|now apply NR2 in Hi].
      * split; [right; left; split; [reflexivity|]|].
        { rewrite !cancels_app. apply cancels_In in HC2. lia. }
        split; [intros C i Hi Di; apply in_or_app; left; apply NF; auto|].
        split; [|split; [|split; [discriminate|exact HQR]]].
        -- intros C (i & Hi). rewrite (NT C) in Hi. cbn in Hi. apply in_app_or in Hi as [Hi|Hi]; [now apply NR in Hi|now apply NR2 in Hi].
        -- intros i Hi. apply in_app_or in Hi as [Hi|Hi]; [now apply QS|].
           apply in_app_or in Hi as [Hi|Hi]; [now apply NR in Hi|now apply NR2 in Hi].
      * split; [right; right; split; [reflexivity|]; split; [apply in_or_app; right; apply in_or_app; now right|exact EX2]|].
        split; [intros C i Hi Di; apply in_or_app; left; apply NF; auto|].
        split; [intros _ _; split; [reflexivity|apply in_or_app; right; apply in_or_app; now right]|]. split.
        -- intros i Hi. apply in_app_or in Hi as [Hi|Hi]; [now apply QS|].
           apply in_app_or in Hi as [Hi|Hi]; [now apply NR in Hi|]. apply RS2 in Hi as [Hi Di]. auto.
        -- split; [|exact HQR]. intros _ i Hi Di. rewrite !reqs_app. pose proof (CNT i h2 (RQ2 i Hi Di)). destruct cf; [lia|].
           assert (In (HReq i) hq). { apply NF; auto. split; [exact Hi|]. apply ND. now apply (ext_undone _ _ _ _ E2). }
           pose proof (CNT i hq H0). lia.
    + destruct H2 as [-> ->]. exists (hq ++ h). split; [eapply extends_trans; eassumption|].
      split; [right; right; split; [reflexivity|]; split; [apply in_or_app; now right|exact EX]|].
      split; [intros C i Hi Di; apply in_or_app; left; apply NF; auto|].
      split; [intros _ _; split; [reflexivity|apply in_or_app; now right]|]. split.
      * intros i Hi. apply in_app_or in Hi as [Hi|Hi].
        -- destruct cf; [rewrite (NT eq_refl) in Hi; destruct Hi|]. now apply NF.
        -- apply RS in Hi as [Hi Di]. split; [exact Hi|]. now rewrite <- (TD w0 i O).
      * split; [|intros C; exists hq, h; split; [reflexivity|]; split; [exact OQ|]; intros i Hi Di; apply NF; auto].
        intros _ i Hi Di. rewrite reqs_app. pose proof (CNT i h (RQ i Hi Di)). destruct cf; [lia|].
        assert (In (HReq i) hq). { apply NF; auto. split; [exact Hi|]. rewrite <- (TD w0 i O). now apply (ext_undone _ _ _ _ E). }
        pose proof (CNT i hq H0). lia.
Qed.

Lemma consume_spec l : forall (w : world) r w', consume_exceptions l w r w' ->
  w' = w /\ ((r = Ok tt /\ forall i, In i l -> task_done w i = true) \/ (r = Err AssertionError /\ exists i, In i l /\ task_done w i = false)).
Proof.
  unfold consume_exceptions. induction l as [|a l IH]; intros w r w' H; cbn [for_] in H.
  - destruct H as [-> ->]. split; [reflexivity|]. left. split; [reflexivity|intros i []].
  - destruct H as [([] & w1 & [(wg & w2 & [Q1 ->] & Q2)|(e & [Q1 ->] & Q2)] & H2)|(e & [(wg & w2 & [Q1 ->] & Q2)|(e1 & [Q1 ->] & Q2)] & ->)]; try discriminate.
    + injection Q1 as ->. unfold assertM in Q2. destruct (task_done w a) eqn:D; destruct Q2 as [Q2 ->]; [|discriminate].
      destruct (IH _ _ _ H2) as [-> [[-> A]|[-> (i & A & B)]]]; (split; [reflexivity|]).
      * left. split; [reflexivity|]. intros i [<-|Hi]; auto.
      * right. split; [reflexivity|]. exists i. split; [now right|exact B].
    + injection Q1 as ->. unfold assertM in Q2. destruct (task_done w a) eqn:D; destruct Q2 as [Q2 ->]; [discriminate|].
      injection Q2 as ->. split; [reflexivity|]. right. split; [reflexivity|]. exists a. split; [now left|exact D].
Qed.

(** The four ways harvest_wait goes. [w1] is the world when the first wait is
    over, [h1] the history until then, [h2] the rest. *)
Inductive hw_case (tasks : list nat) (tmo cf : bool) (w : world) (r : res unit) (w' : world) (h1 h2 : hist) (w1 : world) : Prop :=
| HW_finished :
    ~ In HCancel h1 -> (forall i, In i tasks -> task_done w1 i = true) -> r = Ok tt -> h2 = [] -> w' = w1 -> hw_case tasks tmo cf w r w' h1 h2 w1
| HW_failed rc j :
    ~ In HCancel h1 -> In j tasks -> out_failed (task_out w1 j) = true ->
    pending_of w1 tasks <> [] -> cancel_wait (pending_of w1 tasks) false w1 rc w' ->
    r = rc -> hw_case tasks tmo cf w r w' h1 h2 w1
| HW_timeout rc :
    ~ In HCancel h1 -> In HTimer h1 -> tmo = true -> (forall j, In j tasks -> out_failed (task_out w1 j) = false) ->
    pending_of w1 tasks <> [] -> cancel_wait (pending_of w1 tasks) false w1 rc w' ->
    r = (match rc with Ok _ => Err TimeoutError | Err e => Err e end) -> hw_case tasks tmo cf w r w' h1 h2 w1
| HW_cancelled rc :
    In HCancel h1 -> cancel_wait tasks cf w1 rc w' ->
    r = (match rc with Ok _ => Err CancelledError | Err e => Err e end) -> hw_case tasks tmo cf w r w' h1 h2 w1.

Lemma filter_nil_done (w : world) fs : filter (task_done w) (nodup Nat.eq_dec fs) = [] -> forall i, In i fs -> task_done w i = false.
Proof.
  intros E i Hi. destruct (task_done w i) eqn:D; [|reflexivity].
  assert (Q : In i (filter (task_done w) (nodup Nat.eq_dec fs))) by (apply filter_In; split; [now apply nodup_In|exact D]).
  rewrite E in Q. destruct Q.
Qed.
Lemma undone_not_failed (w : world) i : task_done w i = false -> out_failed (task_out w i) = false.
Proof. unfold task_done. destruct (task_out w i); [discriminate|reflexivity]. Qed.

Lemma harvest_wait_spec tasks tmo cf w r w' : harvest_wait tasks tmo cf w r w' -> tasks <> [] ->
  exists h1 h2 w1, extends w h1 w1 /\ extends w1 h2 w' /\ no_req h1 /\ (In HTimer h1 -> tmo = true)
  /\ hw_case tasks tmo cf w r w' h1 h2 w1.
Proof.
  intros H Hne. unfold HarvestModel.harvest_wait in H.
  destruct H as [([[d p] te] & w1 & H1 & H2)|(e & H1 & ->)].
  - (* the try block returned normally *)
    destruct H1 as [(x & H1 & [= <-])|(e & w0 & H1 & H3)].
    + destruct H1 as [(dp & w0 & HA & HB)|(e & _ & Q)]; [|discriminate].
      destruct HB as [(wg & w2 & [Q1 ->] & [Q2 ->])|(e & [Q1 _] & _)]; [|discriminate].
      injection Q1 as ->. injection Q2 as <- ->.
      apply await_wait_spec in HA; auto. destruct HA as (h1 & E1 & NR & T & D).
      destruct D as [(Q & _)|(Q & NC & D)]; [discriminate|]. injection Q as -> ->. cbn [fst snd] in H2.
      destruct (pending_of w0 tasks) as [|p0 ps] eqn:P.
      * (* nothing pending *)
        destruct H2 as [([] & w3 & [_ ->] & H2)|(e & [Q _] & _)]; [|discriminate].
        destruct H2 as [(wg & w4 & [Q1 ->] & H2)|(e & [Q _] & _)]; [|discriminate]. injection Q1 as ->.
        assert (AD : forall i, In i tasks -> task_done w0 i = true) by now apply pending_nil.
        assert (FA : forallb (task_done w0) tasks = true) by (apply forallb_forall; auto).
        rewrite FA in H2. destruct H2 as [([] & w5 & [_ ->] & H2)|(e & [Q _] & _)]; [|discriminate].
        destruct (filter (task_done w0) (nodup Nat.eq_dec tasks)) as [|d0 ds] eqn:Fd.
        { destruct tasks as [|t0 ts]; [congruence|]. exfalso.
          pose proof (filter_nil_done w0 (t0 :: ts) Fd t0 (or_introl eq_refl)) as Q. rewrite AD in Q; [discriminate|now left]. }
        cbn [time_expired] in H2. destruct H2 as [-> ->].
        exists h1, [], w0. repeat (split; [auto using extends_refl|]). now apply HW_finished.
      * (* some pending *)
        assert (Hp : p0 :: ps <> []) by discriminate. rewrite <- P in H2, Hp.
        destruct (pending_of w0 tasks) as [|pp pps] eqn:P2; [congruence|]. rewrite <- P2 in *. clear pp pps P2.
        assert (HC : exists rc, cancel_wait (pending_of w0 tasks) false w0 rc w'
          /\ ((rc = Ok tt /\ r = if time_expired w0 (filter (task_done w0) (nodup Nat.eq_dec tasks)) (pending_of w0 tasks) then Err TimeoutError else Ok tt)
              \/ exists e, rc = Err e /\ r = Err e)).
        { destruct H2 as [([] & w3 & HC & H2)|(e & HC & ->)]; [|exists (Err e); split; [exact HC|right; eauto]].
          exists (Ok tt).
          destruct H2 as [(wg & w4 & [Q1 ->] & H2)|(e & [Q _] & _)]; [|discriminate]. injection Q1 as ->.
          destruct (cancel_wait_spec _ _ _ _ _ HC Hp) as (h2 & E2 & [(_ & AD)|[(Q & _)|(Q & _)]] & _); try discriminate.
          assert (AD' : forall i, In i tasks -> task_done w3 i = true).
          { intros i Hi. destruct (task_done w0 i) eqn:Di; [now apply (ext_done _ _ _ _ E2)|]. apply AD. now apply in_pending. }
          assert (FA : forallb (task_done w3) tasks = true) by (apply forallb_forall; auto).
          rewrite FA in H2. destruct H2 as [([] & w5 & [_ ->] & H2)|(e & [Q _] & _)]; [|discriminate].
          destruct (time_expired _ _ _).
          - destruct H2 as [([] & w6 & HQ & [-> ->])|(e & HQ & ->)]; apply consume_spec in HQ as [-> HQ]; [split; auto|].
            exfalso. destruct HQ as [(Q & _)|(_ & i & Hi & Di)]; [discriminate|]. rewrite AD' in Di by exact Hi. discriminate.
          - destruct H2 as [-> ->]. split; auto. }
        destruct HC as (rc & HC & HR).
        destruct (cancel_wait_spec _ _ _ _ _ HC Hp) as (h2 & E2 & _).
        exists h1, h2, w0. repeat (split; [now auto|]).
        destruct (existsb (fun i => out_failed (task_out w0 i)) tasks) eqn:EF.
        { apply existsb_exists in EF as (j & Hj & Fj).
          assert (TE : time_expired w0 (filter (task_done w0) (nodup Nat.eq_dec tasks)) (pending_of w0 tasks) = false).
          { assert (Q : In j (filter (task_done w0) (nodup Nat.eq_dec tasks))).
            { apply filter_In. split; [now apply nodup_In|]. unfold task_done. destruct (task_out w0 j); [reflexivity|discriminate]. }
            destruct (filter (task_done w0) (nodup Nat.eq_dec tasks)) as [|x l] eqn:Fl; [destruct Q|]. unfold time_expired.
            destruct (pending_of w0 tasks); [reflexivity|]. apply negb_false_iff. apply existsb_exists. exists j. auto. }
          rewrite TE in HR. eapply HW_failed with (j := j) (rc := rc); eauto.
          destruct HR as [[-> ->]|(e & -> & ->)]; reflexivity. }
        { assert (NF : forall j, In j tasks -> out_failed (task_out w0 j) = false).
          { intros j Hj. destruct (out_failed (task_out w0 j)) eqn:Q; [|reflexivity].
            assert (existsb (fun i => out_failed (task_out w0 i)) tasks = true) by (apply existsb_exists; eauto). congruence. }
          assert (HT : In HTimer h1).
          { destruct D as [D|[D|(_ & i & Hi & D)]]; [congruence|exact D|]. rewrite NF in D by exact Hi. discriminate. }
          assert (TE : time_expired w0 (filter (task_done w0) (nodup Nat.eq_dec tasks)) (pending_of w0 tasks) = true).
          { unfold time_expired. destruct (filter (task_done w0) (nodup Nat.eq_dec tasks)) as [|x l] eqn:Fl; [reflexivity|].
            destruct (pending_of w0 tasks) as [|q qs] eqn:Pq; [congruence|]. rewrite <- Fl. apply negb_true_iff.
            destruct (existsb _ _) eqn:Q in |- *; [|reflexivity]. apply existsb_exists in Q as (j & Hj & Fj).
            apply filter_In in Hj as [Hj _]. apply nodup_In in Hj. rewrite NF in Fj by exact Hj. discriminate. }
          rewrite TE in HR. eapply HW_timeout with (rc := rc); eauto.
          destruct HR as [[-> ->]|(e & -> & ->)]; reflexivity. }
    + (* the handler cannot return normally *)
      exfalso. destruct e; try (destruct H3; discriminate).
      destruct H3 as [([] & w3 & _ & H3)|(e & _ & Q)]; [|discriminate].
      destruct H3 as [([] & w4 & _ & [Q _])|(e & _ & Q)]; discriminate.
  - destruct H1 as [(x & _ & Q)|(e0 & w0 & H1 & H3)]; [discriminate|].
    destruct H1 as [(dp & w2 & HA & HB)|(e1 & HA & [= <-])].
    { exfalso. destruct HB as [(wg & w3 & [Q1 ->] & [Q2 ->])|(e2 & [Q1 _] & _)]; discriminate. }
    apply await_wait_spec in HA; auto. destruct HA as (h1 & E1 & NR & T & D).
    destruct D as [(Q & HC)|(Q & _)]; [|discriminate]. injection Q as ->.
    assert (HR : exists rc, cancel_wait tasks cf w0 rc w' /\ Err e = match rc with Ok _ => Err CancelledError | Err e => @Err unit e end).
    { destruct H3 as [([] & w3 & HW & H3)|(e1 & HW & [= ->])]; [|exists (Err e1); auto].
      exists (Ok tt). destruct (cancel_wait_spec _ _ _ _ _ HW Hne) as (h2 & E2 & [(_ & AD)|[(Q & _)|(Q & _)]] & _); try discriminate.
      destruct H3 as [([] & w4 & HQ & [Q ->])|(e1 & HQ & _)]; apply consume_spec in HQ as [-> HQ]; [injection Q as ->; auto|].
      exfalso. destruct HQ as [(QQ & _)|(_ & i & Hi & Di)]; [discriminate|]. rewrite AD in Di by exact Hi. discriminate. }
    destruct HR as (rc & HW & HR).
    destruct (cancel_wait_spec _ _ _ _ _ HW Hne) as (h2 & E2 & _).
    exists h1, h2, w0. repeat (split; [now auto|]). eapply HW_cancelled; eauto.
Qed.
End Proofs.
