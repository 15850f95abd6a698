From Verif Require Import AsyncModel AsyncSpec AsyncProofs HarvestModel HarvestSpec HarvestProofs.

Section Proofs.
Context {X K V XE : Type}.
Context (xstep : X -> XE -> option (X * bool)).
Context (finish : X -> task K V -> tout V -> option X).
Notation world := (world X K V).
Notation hist := (list (hev V)).
Notation cancel_wait := (cancel_wait xstep finish).
Notation harvest_wait := (harvest_wait xstep finish).
Notation harvest_tasks := (harvest_tasks xstep finish).
Notation harvest := (harvest xstep finish).
Notation harvest_results := (harvest_results xstep finish).

Lemma ensure_futures_spec (aws : list (@awaitable K)) : forall (w : world) r w',
  ensure_futures aws w r w' -> r = Ok (managed w aws) /\ extends w [] w' /\ w_x w' = w_x w
  /\ (List.length (w_tasks w) <= List.length (w_tasks w'))%nat
  /\ (forall i, task_out w' i = task_out w i)
  /\ (forall k i, In (AwTask i) aws -> nth_error (w_tasks w) i = Some k -> nth_error (w_tasks w') i = Some k)
  /\ exists new, w_tasks w' = w_tasks w ++ new.
Proof.
  induction aws as [|a aws IH]; intros w r w' H; cbn [ensure_futures] in H.
  - destruct H as [-> ->]. split; [reflexivity|]. split; [apply extends_refl|]. split; [reflexivity|]. split; [lia|].
    split; [reflexivity|]. split; [auto|]. exists []. now rewrite app_nil_r.
  - destruct H as [(i & w1 & H1 & H2)|(e & H1 & _)].
    2:{ destruct a; destruct H1; discriminate. }
    destruct H2 as [(is & w2 & H2 & [-> ->])|(e & H2 & _)].
    2:{ apply IH in H2 as [Q _]. discriminate. }
    apply IH in H2 as (Q & E & Ex & L & O & N & new & T). injection Q as ->.
    destruct a as [j|k].
    + destruct H1 as [[= ->] ->]. split; [reflexivity|]. split; [exact E|]. split; [exact Ex|]. split; [exact L|].
      split; [exact O|]. split; [|eauto]. intros t i [[= ->]|Hi] Ht; [|eauto]. rewrite T. rewrite nth_error_app1; [exact Ht|].
      apply nth_error_Some. congruence.
    + destruct H1 as [[= ->] ->]. cbn [w_tasks w_x] in *.
      assert (O1 : forall i, task_out (mk_world (w_tasks w ++ [mk_task k None 0]) (w_x w) (w_hist w)) i = task_out w i).
      { intros i. unfold task_out. cbn [w_tasks]. destruct (Nat.lt_ge_cases i (List.length (w_tasks w))) as [Hl|Hl].
        - now rewrite nth_error_app1.
        - rewrite nth_error_app2 by exact Hl. rewrite (proj2 (nth_error_None (w_tasks w) i)) by exact Hl.
          destruct (i - List.length (w_tasks w))%nat as [|[|m]]; reflexivity. }
      assert (HL : List.length (w_tasks w ++ [mk_task k None 0]) = S (List.length (w_tasks w))).
      { rewrite app_length. cbn. lia. }
      unfold managed in *. cbn [w_tasks numbering] in *. rewrite HL in *.
      split; [reflexivity|]. split; [apply (extends_trans _ _ _ [] [] (extends_spawn w k) E)|].
      split; [exact Ex|]. split; [lia|]. split; [intros i; now rewrite O, O1|]. split.
      * intros t i Hi Ht. rewrite T, <- app_assoc. rewrite nth_error_app1; [exact Ht|]. apply nth_error_Some. congruence.
      * exists (mk_task k None 0 :: new). rewrite T, <- app_assoc. reflexivity.
Qed.
Lemma ensure_futures_exist (aws : list (@awaitable K)) : forall (w : world) r w',
  ensure_futures aws w r w' -> (forall i, In (AwTask i) aws -> nth_error (w_tasks w) i <> None) ->
  forall i, In i (managed w aws) -> nth_error (w_tasks w') i <> None.
Proof.
  induction aws as [|a aws IH]; intros w r w' H Hex i Hi; [destruct Hi|]. cbn [ensure_futures] in H.
  destruct H as [(j & w1 & H1 & H2)|(e & H1 & _)]; [|destruct a; destruct H1; discriminate].
  destruct H2 as [(is & w2 & H2 & [_ ->])|(e & H2 & _)]; [|apply ensure_futures_spec in H2 as [Q _]; discriminate].
  pose proof (ensure_futures_spec _ _ _ _ H2) as (_ & _ & _ & L & _).
  destruct a as [k|k].
  - destruct H1 as [[= ->] ->]. destruct Hi as [<-|Hi].
    + apply nth_error_Some. specialize (Hex k (or_introl eq_refl)). apply nth_error_Some in Hex. lia.
    + eapply IH; eauto. intros j Hj. apply Hex. now right.
  - destruct H1 as [[= ->] ->]. cbn [w_tasks] in *. rewrite app_length in L. cbn in L. destruct Hi as [<-|Hi].
    + apply nth_error_Some. lia.
    + eapply IH; [exact H2| |].
      * intros j Hj. cbn [w_tasks]. apply nth_error_Some. rewrite app_length. cbn.
        specialize (Hex j (or_intror Hj)). apply nth_error_Some in Hex. lia.
      * unfold managed. cbn [w_tasks]. rewrite app_length. cbn. now rewrite Nat.add_1_r.
Qed.
Lemma ensure_futures_total (aws : list (@awaitable K)) : forall (w : world), exists w', ensure_futures aws w (Ok (managed w aws)) w'.
Proof.
  induction aws as [|a aws IH]; intros w; [exists w; now split|]. destruct a as [i|k]; cbn [ensure_futures].
  - destruct (IH w) as (w' & H). exists w'. left. exists i, w. split; [now split|]. left. exists (managed w aws), w'. split; [exact H|now split].
  - set (w1 := mk_world (w_tasks w ++ [mk_task k None 0]) (w_x w) (w_hist w)).
    destruct (IH w1) as (w' & H). exists w'. left. exists (List.length (w_tasks w)), w1. split; [now split|].
    left. exists (managed w1 aws), w'. split; [exact H|]. split; [|reflexivity]. unfold managed, w1. cbn [w_tasks numbering].
    rewrite app_length. cbn. now rewrite Nat.add_1_r.
Qed.

Lemma managed_nil (w : world) (aws : list (@awaitable K)) : managed w aws = [] <-> aws = [].
Proof. unfold managed. destruct aws as [|[]]; cbn; split; congruence. Qed.

(** The loop over task.result(). *)
Definition results_loop (tasks : list nat) : M unit :=
  for_ tasks (fun i => bindM getM (fun w : world =>
    match task_out w i with
    | Some TCancelled => ret tt
    | _ => bindM (get_task_result i) (fun _ => ret tt)
    end)).
Lemma results_loop_spec tasks : forall (w : world) r w', results_loop tasks w r w' -> (forall i, In i tasks -> task_done w i = true) ->
  w' = w /\ ((r = Ok tt /\ forall i e, In i tasks -> task_out w i <> Some (TFail e))
             \/ exists e, r = Err e /\ first_failure w tasks e).
Proof.
  unfold results_loop. induction tasks as [|a l IH]; intros w r w' H AD; cbn [for_] in H.
  - destruct H as [-> ->]. split; [reflexivity|]. left. split; [reflexivity|intros i e []].
  - assert (ST : forall r1 w1, bindM getM (fun w : world => match task_out w a with Some TCancelled => ret tt
        | _ => bindM (get_task_result a) (fun _ => ret tt) end) w r1 w1 ->
        w1 = w /\ ((r1 = Ok tt /\ forall e, task_out w a <> Some (TFail e)) \/ exists e, r1 = Err e /\ task_out w a = Some (TFail e))).
    { intros r1 w1 [(wg & w2 & [Q ->] & H1)|(e & [Q _] & _)]; [|discriminate]. injection Q as ->.
      specialize (AD a (or_introl eq_refl)). unfold task_done in AD.
      destruct (task_out w a) as [o|] eqn:O; [|discriminate].
      destruct o as [v|e|].
      - destruct H1 as [(v' & w3 & H1 & [-> ->])|(e & H1 & ->)]; unfold get_task_result in H1;
          (destruct H1 as [(wg & w4 & [Q ->] & H1)|(e' & [Q _] & _)]; [|discriminate]); injection Q as ->; rewrite O in H1; cbn in H1; destruct H1 as [Q ->].
        + split; [reflexivity|]. left. split; [reflexivity|]. congruence.
        + discriminate.
      - destruct H1 as [(v' & w3 & H1 & [-> ->])|(e' & H1 & ->)]; unfold get_task_result in H1;
          (destruct H1 as [(wg & w4 & [Q ->] & H1)|(e'' & [Q _] & _)]; [|discriminate]); injection Q as ->; rewrite O in H1; cbn in H1; destruct H1 as [Q ->].
        + discriminate.
        + injection Q as ->. split; [reflexivity|]. right. eauto.
      - destruct H1 as [-> ->]. split; [reflexivity|]. left. split; [reflexivity|]. congruence. }
    destruct H as [([] & w1 & H1 & H2)|(e & H1 & ->)]; apply ST in H1 as [-> H1].
    + destruct H1 as [(_ & N)|(e & Q & _)]; [|discriminate].
      apply IH in H2 as [-> D]; [|intros; apply AD; now right]. split; [reflexivity|].
      destruct D as [(-> & D)|(e & -> & pre & i & post & -> & F & D)].
      * left. split; [reflexivity|]. intros i e [<-|Hi]; [apply N|now apply D].
      * right. exists e. split; [reflexivity|]. exists (a :: pre), i, post. split; [reflexivity|]. split; [exact F|].
        intros j e' [<-|Hj]; [apply N|now apply D].
    + destruct H1 as [(Q & _)|(e' & [= ->] & F)]; [discriminate|]. split; [reflexivity|]. right. exists e'. split; [reflexivity|].
      exists [], a, l. split; [reflexivity|]. split; [exact F|]. intros j e [].
Qed.

(** harvest = harvest_wait, then the results. *)
Lemma harvest_tasks_spec tasks tmo cf w r w' : harvest_tasks tasks tmo cf w r w' -> tasks <> [] ->
  exists rw, harvest_wait tasks tmo cf w rw w' /\
  match rw with
  | Err e => r = Err e
  | Ok _ => (forall i, In i tasks -> task_done w' i = true)
            /\ ((r = Ok tt /\ forall i e, In i tasks -> task_out w' i <> Some (TFail e))
                \/ exists e, r = Err e /\ first_failure w' tasks e)
  end.
Proof.
  intros H Hne. unfold HarvestModel.harvest_tasks in H. destruct H as [([] & w1 & H1 & H2)|(e & H1 & ->)]; [|exists (Err e); auto].
  assert (AD : forall i, In i tasks -> task_done w1 i = true).
  { destruct (harvest_wait_spec _ _ _ _ _ _ _ _ H1 Hne) as (h1 & h2 & w0 & E1 & E2 & _ & _ & C).
    destruct C as [_ AD _ _ ->|rc j _ _ _ P HC <-|rc _ _ _ _ _ HC R|rc _ HC R].
    - exact AD.
    - destruct (cancel_wait_spec _ _ _ _ _ _ _ HC P) as (h & E & [(_ & D)|[(Q & _)|(Q & _)]] & _); try discriminate.
      intros i Hi. destruct (task_done w0 i) eqn:Di; [now apply (ext_done _ _ _ _ E)|]. apply D. now apply in_pending.
    - destruct rc; discriminate.
    - destruct rc; discriminate. }
  destruct H2 as [([] & w2 & H2 & H3)|(e & H2 & ->)]; apply consume_spec in H2 as [-> H2].
  - exists (Ok tt). apply results_loop_spec in H3 as [-> H3]; [|exact AD]. auto.
  - exfalso. destruct H2 as [(Q & _)|(_ & i & Hi & Di)]; [discriminate|]. rewrite AD in Di by exact Hi. discriminate.
Qed.

(** Everything known about a run of harvest_wait, with all cancel_wait facts
    unfolded.  [w1] is the world when the first wait is over. *)
Record hw_facts (tasks : list nat) (tmo cf : bool) (w : world) (r : res unit) (w' : world) (h1 h2 : hist) (w1 : world) : Prop := {
  hf_e1 : extends w h1 w1;
  hf_e2 : extends w1 h2 w';
  hf_nr : no_req h1;
  hf_tm : In HTimer h1 -> tmo = true;
  hf_ok : r = Ok tt -> (forall i, In i tasks -> task_done w' i = true) /\ ~ In HCancel h1;
  hf_errs : forall e, r = Err e -> e = TimeoutError \/ e = CancelledError \/ e = cancel_failed;
  hf_to : r = Err TimeoutError -> tmo = true /\ In HTimer h1 /\ ~ In HCancel h1
          /\ (forall i, In i tasks -> task_done w' i = true) /\ (forall j, In j tasks -> out_failed (task_out w1 j) = false);
  hf_to_conv : ~ In HCancel h1 -> (exists i, In i tasks /\ task_done w1 i = false) ->
          (forall j, In j tasks -> out_failed (task_out w1 j) = false) ->
          r = Err TimeoutError \/ r = Err cancel_failed \/ (r = Err CancelledError /\ (cancels h2 >= 2)%nat);
  hf_canc : r = Err CancelledError ->
          (In HCancel h1 /\ ((forall i, In i tasks -> task_done w' i = true) \/ (cancels h2 >= 2)%nat))
          \/ (~ In HCancel h1 /\ (cancels h2 >= 2)%nat);
  hf_canc_first : In HCancel h1 -> r = Err CancelledError \/ r = Err cancel_failed;
  hf_fail : r = Err cancel_failed -> In HTimer h2 /\ (exists i, In i tasks /\ task_done w' i = false)
          /\ (forall i, In i tasks -> task_done w' i = false -> (reqs i h2 >= (if cf then 1 else 2))%nat);
  hf_req : (In HCancel h1 -> cf = false) -> forall i, In i tasks -> task_done w1 i = true \/ In (HReq i) h2;
  hf_cf : In HCancel h1 -> cf = true -> (exists i, In (HReq i) h2) -> r = Err cancel_failed;
  hf_why : forall i, In (HReq i) h2 -> In i tasks /\ task_done w1 i = false
           /\ (In HCancel h1 \/ In HTimer h1 \/ exists j, In j tasks /\ out_failed (task_out w1 j) = true);
  hf_first : ~ In HCancel h1 -> h2 = [] \/ exists i h', h2 = HReq i :: h'
}.

Lemma hw_facts_intro tasks tmo cf w r w' : harvest_wait tasks tmo cf w r w' -> tasks <> [] ->
  exists h1 h2 w1, hw_facts tasks tmo cf w r w' h1 h2 w1.
Proof.
  intros H Hne. destruct (harvest_wait_spec _ _ _ _ _ _ _ _ H Hne) as (h1 & h2 & w1 & E1 & E2 & NR & T & C).
  assert (HH : forall ha, extends w1 ha w' -> ha = h2).
  { intros ha (Q & _). destruct E2 as (Q2 & _). rewrite Q in Q2. now apply app_inv_head in Q2. }
  exists h1, h2, w1. destruct C as [NC AD -> -> ->|rc j NC Hj Fj P HC <-|rc NC HT Ht NF P HC R|rc HCn HC R].
  - constructor; auto; try discriminate; try tauto.
    + intros _ (i & Hi & Di) _. rewrite AD in Di by exact Hi. discriminate.
    + intros i [].
  - destruct (cancel_wait_spec _ _ _ _ _ _ _ HC P) as (h & E & D & RQ & _ & RS & RF & HQ).
    apply HH in E as ->. specialize (RQ eq_refl). destruct (HQ eq_refl) as (hq & hr & Eh & OQ & QI).
    assert (PD : (forall i, In i (pending_of w1 tasks) -> task_done w' i = true) -> forall i, In i tasks -> task_done w' i = true).
    { intros AD i Hi. destruct (task_done w1 i) eqn:Di; [now apply (ext_done _ _ _ _ E2)|]. apply AD. now apply in_pending. }
    constructor; auto; try tauto.
    + intros ->. destruct D as [(_ & D)|[(Q & _)|(Q & _)]]; try discriminate. auto.
    + intros e ->. destruct D as [(Q & _)|[(Q & _)|(Q & _)]]; try discriminate; injection Q as ->; auto.
    + intros ->. destruct D as [(Q & _)|[(Q & _)|(Q & _)]]; discriminate.
    + intros _ _ Q. rewrite Q in Fj by exact Hj. discriminate.
    + intros ->. destruct D as [(Q & _)|[(_ & Q)|(Q & _)]]; try discriminate. auto.
    + intros ->. destruct D as [(Q & _)|[(Q & _)|(_ & Q1 & i & Hi & Di)]]; try discriminate.
      split; [exact Q1|]. split; [exists i; split; [apply in_pending in Hi; tauto|exact Di]|].
      intros k Hk Dk. assert (Q : (reqs k h2 >= 2)%nat).
      { apply RF; auto. apply in_pending. split; [exact Hk|]. now apply (ext_undone _ _ _ _ E2). }
      destruct cf; lia.
    + intros _ i Hi. destruct (task_done w1 i) eqn:Di; [now left|]. right. apply RQ; [|exact Di]. now apply in_pending.
    + intros i Hi. apply RS in Hi as [Hi Di]. apply in_pending in Hi as [Hi _]. split; [exact Hi|]. split; [exact Di|]. right; right. eauto.
    + intros _. right. destruct (pending_of w1 tasks) as [|p ps] eqn:Pq; [congruence|].
      assert (Q : In (HReq p) hq).
      { apply QI; [now left|]. assert (Q : In p (pending_of w1 tasks)) by (rewrite Pq; now left). now apply in_pending in Q. }
      destruct hq as [|e hq]; [destruct Q|]. destruct (OQ e) as (i & ->); [now left|]. exists i, (hq ++ hr). now rewrite Eh.
  - destruct (cancel_wait_spec _ _ _ _ _ _ _ HC P) as (h & E & D & RQ & _ & RS & RF & HQ).
    apply HH in E as ->. specialize (RQ eq_refl). destruct (HQ eq_refl) as (hq & hr & Eh & OQ & QI).
    assert (PD : (forall i, In i (pending_of w1 tasks) -> task_done w' i = true) -> forall i, In i tasks -> task_done w' i = true).
    { intros AD i Hi. destruct (task_done w1 i) eqn:Di; [now apply (ext_done _ _ _ _ E2)|]. apply AD. now apply in_pending. }
    constructor; auto; try tauto.
    + intros ->. destruct rc; discriminate.
    + intros e ->. destruct D as [(-> & _)|[(-> & _)|(-> & _)]]; injection R as ->; auto.
    + intros ->. destruct D as [(-> & D)|[(-> & _)|(-> & _)]]; try discriminate. auto 6.
    + intros _ _ _. destruct D as [(-> & D)|[(-> & Q)|(-> & _)]]; auto.
    + intros ->. destruct D as [(-> & D)|[(-> & Q)|(-> & _)]]; try discriminate; auto.
    + intros ->. destruct D as [(-> & _)|[(-> & _)|(-> & Q1 & i & Hi & Di)]]; try discriminate.
      split; [exact Q1|]. split; [exists i; split; [apply in_pending in Hi; tauto|exact Di]|].
      intros k Hk Dk. assert (Q : (reqs k h2 >= 2)%nat).
      { apply RF; auto. apply in_pending. split; [exact Hk|]. now apply (ext_undone _ _ _ _ E2). }
      destruct cf; lia.
    + intros _ i Hi. destruct (task_done w1 i) eqn:Di; [now left|]. right. apply RQ; [|exact Di]. now apply in_pending.
    + intros i Hi. apply RS in Hi as [Hi Di]. apply in_pending in Hi as [Hi _]. auto.
    + intros _. right. destruct (pending_of w1 tasks) as [|p ps] eqn:Pq; [congruence|].
      assert (Q : In (HReq p) hq).
      { apply QI; [now left|]. assert (Q : In p (pending_of w1 tasks)) by (rewrite Pq; now left). now apply in_pending in Q. }
      destruct hq as [|e hq]; [destruct Q|]. destruct (OQ e) as (i & ->); [now left|]. exists i, (hq ++ hr). now rewrite Eh.
  - destruct (cancel_wait_spec _ _ _ _ _ _ _ HC Hne) as (h & E & D & RQ & RC & RS & RF & HQ).
    apply HH in E as ->.
    constructor; auto; try tauto.
    + intros ->. destruct rc; discriminate.
    + intros e ->. destruct D as [(-> & _)|[(-> & _)|(-> & _)]]; injection R as ->; auto.
    + intros ->. destruct D as [(-> & D)|[(-> & _)|(-> & _)]]; discriminate.
    + intros ->. left. split; [exact HCn|]. destruct D as [(-> & D)|[(-> & Q)|(-> & _)]]; try discriminate; auto.
    + intros _. destruct D as [(-> & D)|[(-> & Q)|(-> & _)]]; auto.
    + intros ->. destruct D as [(-> & _)|[(-> & _)|(-> & Q1 & Q2)]]; try discriminate. auto.
    + intros Hcf i Hi. destruct (task_done w1 i) eqn:Di; [now left|]. right. now apply RQ; auto.
    + intros _ Hcf Q. destruct (RC Hcf Q) as [-> _]. exact R.
    + intros i Hi. apply RS in Hi as [Hi Di]. auto.
Qed.

(** Facts about harvest itself, from the world in which it was called. *)
Lemma harvest_facts aws tmo cf (w : world) r w' : harvest aws tmo cf w r w' -> aws <> [] ->
  exists w0 rw h1 h2 w1, extends w [] w0 /\ ((forall i, task_out w0 i = task_out w i)
    /\ ((forall i, In (AwTask i) aws -> nth_error (w_tasks w) i <> None) ->
        forall i, In i (managed w aws) -> task_out w1 i = match task_out w i with Some o => Some o | None => done_in i h1 end))
  /\ hw_facts (managed w aws) tmo cf w0 rw w' h1 h2 w1
  /\ match rw with
     | Err e => r = Err e
     | Ok _ => (r = Ok tt /\ forall i e, In i (managed w aws) -> task_out w' i <> Some (TFail e))
                \/ exists e, r = Err e /\ first_failure w' (managed w aws) e
     end.
Proof.
  intros H Hne. destruct H as [(tasks & w0 & H1 & H2)|(e & H1 & _)]; pose proof (ensure_futures_exist _ _ _ _ H1) as EXI; apply ensure_futures_spec in H1; [|destruct H1; discriminate].
  destruct H1 as (Q & E0 & _ & _ & O & _). injection Q as ->.
  assert (Hm : managed w aws <> []) by (rewrite managed_nil; exact Hne).
  destruct (harvest_tasks_spec _ _ _ _ _ _ H2 Hm) as (rw & HW & R).
  destruct (hw_facts_intro _ _ _ _ _ _ HW Hm) as (h1 & h2 & w1 & F).
  exists w0, rw, h1, h2, w1. split; [exact E0|]. split.
  { split; [exact O|]. intros Hex i Hi. rewrite <- O. apply (ext_out _ _ _ _ (hf_e1 _ _ _ _ _ _ _ _ _ F)). now apply EXI. } split; [exact F|]. destruct rw; [tauto|exact R].
Qed.

Lemma harvest_hist aws tmo cf (w w0 w1 w' : world) rw h1 h2 : extends w [] w0 ->
  hw_facts (managed w aws) tmo cf w0 rw w' h1 h2 w1 -> w_hist w' = w_hist w ++ h1 ++ h2.
Proof.
  intros (Q0 & _) F. destruct F as [(Q1 & _) (Q2 & _)]. rewrite Q2, Q1, Q0, app_nil_r, app_assoc. reflexivity.
Qed.

(** to_results *)
Definition reraised (o : tout V) : Prop := o = TFail AssertionError \/ exists m, o = TFail (RuntimeError m).
Lemma to_results_spec tasks : forall (w : world) r w', to_results tasks w r w' ->
  w' = w /\ ((exists os, r = Ok os /\ Forall2 (fun i o => task_out w i = Some o /\ ~ reraised o) tasks os)
             \/ (exists e i o, r = Err e /\ In i tasks /\ task_out w i = Some o /\ o = TFail e /\ reraised o)
             \/ (r = Err InvalidStateError /\ exists i, In i tasks /\ task_done w i = false)).
Proof.
  induction tasks as [|a l IH]; intros w r w' H; cbn [to_results] in H.
  - destruct H as [-> ->]. split; [reflexivity|]. left. exists []. auto.
  - assert (ST : forall r1 w1, to_result a w r1 w1 -> w1 = w /\
      ((exists o, r1 = Ok o /\ task_out w a = Some o /\ ~ reraised o)
       \/ (exists e o, r1 = Err e /\ task_out w a = Some o /\ o = TFail e /\ reraised o)
       \/ (r1 = Err InvalidStateError /\ task_done w a = false))).
    { intros r1 w1 [(wg & w2 & [Q ->] & H1)|(e & [Q _] & _)]; [|discriminate]. injection Q as ->.
      unfold task_done. destruct (task_out w a) as [o|] eqn:O.
      - assert (G : (reraised o /\ exists e, o = TFail e /\ r1 = Err e) \/ (~ reraised o /\ r1 = Ok o)).
        { unfold reraised. destruct o as [v|e|]; [right; split; [|apply H1]|destruct e|right; split; [|apply H1]];
            try (right; split; [intros [Q|(m & Q)]; congruence|apply H1]);
            try (intros [Q|(m & Q)]; congruence).
          - left. split; [now left|]. eexists. split; [reflexivity|apply H1].
          - left. split; [right; eauto|]. eexists. split; [reflexivity|apply H1]. }
        assert (w1 = w). { destruct o as [v|e|]; [|destruct e|]; apply H1. }
        subst w1. split; [reflexivity|]. destruct G as [(G & e & -> & ->)|(G & ->)]; [right; left; exists e, (TFail e); auto|left; eauto].
      - destruct H1 as [-> ->]. split; [reflexivity|]. right; right. auto. }
    destruct H as [(o & w1 & H1 & H2)|(e & H1 & ->)]; apply ST in H1 as [-> H1].
    + destruct H1 as [(o' & [= <-] & O & N)|[(e & o' & Q & _)|(Q & _)]]; try discriminate.
      destruct H2 as [(os & w2 & H2 & [-> ->])|(e & H2 & ->)]; apply IH in H2 as [-> H2]; (split; [reflexivity|]).
      * destruct H2 as [(os' & [= <-] & F)|[(e & i & o' & Q & _)|(Q & _)]]; try discriminate.
        left. exists (o :: os). auto.
      * destruct H2 as [(os' & Q & F)|[(e' & i & o' & [= <-] & Hi & P)|([= ->] & i & Hi & D)]]; try discriminate.
        -- right; left. exists e, i, o'. split; [reflexivity|]. split; [now right|exact P].
        -- right; right. split; [reflexivity|]. exists i. split; [now right|exact D].
    + split; [reflexivity|]. destruct H1 as [(o' & Q & _)|[(e' & o' & [= <-] & O & P)|([= ->] & D)]]; try discriminate.
      * right; left. exists e, a, o'. split; [reflexivity|]. split; [now left|auto].
      * right; right. split; [reflexivity|]. exists a. split; [now left|exact D].
Qed.

Lemma harvest_results_facts aws tmo (w : world) r w' : harvest_results aws tmo w r w' -> aws <> [] ->
  exists w0 rw h1 h2 w1, extends w [] w0 /\ (forall i, task_out w0 i = task_out w i)
  /\ hw_facts (managed w aws) tmo false w0 rw w' h1 h2 w1
  /\ match rw with
     | Err CancelledError | Ok _ =>
         (exists os, r = Ok (match rw with Ok _ => false | _ => true end, os)
             /\ Forall2 (fun i o => task_out w' i = Some o /\ ~ reraised o) (managed w aws) os)
         \/ (exists e i o, r = Err e /\ In i (managed w aws) /\ task_out w' i = Some o /\ o = TFail e /\ reraised o)
         \/ (r = Err InvalidStateError /\ exists i, In i (managed w aws) /\ task_done w' i = false)
     | Err e => r = Err e
     end.
Proof.
  intros H Hne. destruct H as [(tasks & w0 & H1 & H2)|(e & H1 & _)]; apply ensure_futures_spec in H1; [|destruct H1; discriminate].
  destruct H1 as (Q & E0 & _ & _ & O & _). injection Q as ->.
  assert (Hm : managed w aws <> []) by (rewrite managed_nil; exact Hne).
  unfold harvest_results_tasks in H2.
  assert (G : exists rw w2, harvest_wait (managed w aws) tmo false w0 rw w2 /\
     match rw with
     | Err CancelledError | Ok _ =>
         bindM (to_results (managed w aws)) (fun os => ret (match rw with Ok _ => false | _ => true end, os)) w2 r w'
     | Err e => r = Err e /\ w' = w2
     end).
  { destruct H2 as [(c & w2 & H2 & H3)|(e & H2 & ->)].
    - destruct H2 as [(c' & H2 & [= <-])|(e & w3 & H2 & H4)].
      + destruct H2 as [([] & w3 & H2 & [[= ->] ->])|(e & _ & Q)]; [|discriminate]. exists (Ok tt), w3. auto.
      + destruct H2 as [([] & w4 & _ & [Q _])|(e' & H2 & [= <-])]; [discriminate|].
        destruct e; try (destruct H4; discriminate). destruct H4 as [[= ->] ->]. exists (Err CancelledError), w3. auto.
    - destruct H2 as [(c' & _ & Q)|(e' & w3 & H2 & H4)]; [discriminate|].
      destruct H2 as [([] & w4 & _ & [Q _])|(e2 & H2 & [= <-])]; [discriminate|].
      exists (Err e'), w3. split; [exact H2|]. destruct e'; destruct H4 as [H4 ->]; try discriminate; (split; [|reflexivity]); congruence. }
  destruct G as (rw & w2 & HW & R).
  assert (G2 : w2 = w' /\ match rw with
     | Err CancelledError | Ok _ =>
         (exists os, r = Ok (match rw with Ok _ => false | _ => true end, os)
             /\ Forall2 (fun i o => task_out w' i = Some o /\ ~ reraised o) (managed w aws) os)
         \/ (exists e i o, r = Err e /\ In i (managed w aws) /\ task_out w' i = Some o /\ o = TFail e /\ reraised o)
         \/ (r = Err InvalidStateError /\ exists i, In i (managed w aws) /\ task_done w' i = false)
     | Err e => r = Err e
     end).
  { assert (G3 : forall b, bindM (to_results (managed w aws)) (fun os => ret (b, os)) w2 r w' -> w2 = w' /\
      ((exists os, r = Ok (b, os) /\ Forall2 (fun i o => task_out w' i = Some o /\ ~ reraised o) (managed w aws) os)
         \/ (exists e i o, r = Err e /\ In i (managed w aws) /\ task_out w' i = Some o /\ o = TFail e /\ reraised o)
         \/ (r = Err InvalidStateError /\ exists i, In i (managed w aws) /\ task_done w' i = false))).
    { intros b [(os & w3 & H3 & [-> ->])|(e & H3 & ->)]; apply to_results_spec in H3 as [-> H3]; (split; [reflexivity|]).
      - destruct H3 as [(os' & [= <-] & F)|[(e & i & o & Q & _)|(Q & _)]]; try discriminate. left. eauto.
      - destruct H3 as [(os' & Q & F)|[(e' & i & o & [= <-] & P)|([= ->] & P)]]; try discriminate; [right; left|right; right]; eauto. }
    destruct rw as [[]|e]; [now apply G3|]. destruct e; try (destruct R as [-> ->]; split; reflexivity). now apply G3. }
  destruct G2 as [-> R']. destruct (hw_facts_intro _ _ _ _ _ _ HW Hm) as (h1 & h2 & w1 & F).
  exists w0, rw, h1, h2, w1. auto.
Qed.
End Proofs.
