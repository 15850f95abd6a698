From Verif Require Import AsyncSpec AsyncProofs HarvestModel HarvestSpec HarvestProofs HarvestProofs2 AsyncInv PipeRunnerModel.
Open Scope nat_scope.

Definition same_px (x0 x : px) : Prop :=
  p_tasks x = p_tasks x0 /\ p_cancelled x = p_cancelled x0 /\ p_results x = p_results x0 /\ p_ready x = p_ready x0 /\ p_closed x = p_closed x0.
Lemma same_px_refl x : same_px x x.
Proof. unfold same_px. auto. Qed.
Lemma same_px_stable x0 : stable pstep pfinish (fun w => same_px x0 (w_x w)).
Proof.
  apply stable_x.
  - intros x [] x' c H [= <- <-]. exact H.
  - intros x t o x' H E. unfold pfinish in E. destruct (t_kind t), o as [[]| |]; try discriminate E; try (injection E as <-; exact H).
    destruct (_ && _); [injection E as <-; exact H|discriminate E].
Qed.
Lemma managed_tasks (w : world) ts : managed w (map AwTask ts) = ts.
Proof. unfold managed. generalize (List.length (w_tasks w)). induction ts as [|t ts IH]; intros n; [reflexivity|]. cbn. now rewrite IH. Qed.
Lemma map_ne {A B} (f : A -> B) l : l <> [] -> map f l <> [].
Proof. destruct l; [congruence|discriminate]. Qed.

(** What is known when harvest_results is over. *)
Lemma harvest_spec ts w r w' : harvest_results (map AwTask ts) false w r w' -> ts <> [] ->
  exists h, extends w h w' /\ same_px (w_x w) (w_x w')
  /\ (r <> Err cancel_failed -> (cancels h <= 1 \/ (exists ha hb, h = ha ++ HCancel :: hb /\ no_request ha /\ cancels h <= 2)) -> forall i, In i ts -> task_done w' i = true)
  /\ match r with
     | Ok (c, os) => Forall2 (fun i o => task_out w' i = Some o /\ ~ reraised o) ts os
                     /\ (c = true -> In HCancel h)
                     /\ (forall ha hb, h = ha ++ HCancel :: hb -> no_request ha -> c = true)
     | Err e => e = cancel_failed \/ (exists i, In i ts /\ task_out w' i = Some (TFail e) /\ reraised (TFail (V := pval) e))
                \/ (e = InvalidStateError /\ cancels h >= 2)
     end.
Proof.
  intros H NE. pose proof (map_ne (AwTask (K := pkind)) ts NE) as NE'.
  assert (SP : same_px (w_x w) (w_x w')).
  { exact (k_harvest_results _ _ _ (same_px_stable (w_x w)) _ _ _ _ _ (same_px_refl _) H). }
  destruct (harvest_results_facts _ _ _ _ _ _ _ H NE') as (w0 & rw & h1 & h2 & w1 & E0 & O & F & R).
  rewrite managed_tasks in F, R. pose proof (extends_trans _ _ _ _ _ E0 (extends_trans _ _ _ _ _ (hf_e1 _ _ _ _ _ _ _ _ _ F) (hf_e2 _ _ _ _ _ _ _ _ _ F))) as E.
  cbn [app] in E. exists (h1 ++ h2). split; [exact E|]. split; [exact SP|].
  assert (NTO : rw <> Err TimeoutError). { intros Q. destruct (hf_to _ _ _ _ _ _ _ _ _ F Q) as (Q2 & _). discriminate. }
  assert (H1C : forall ha hb, h1 ++ h2 = ha ++ HCancel :: hb -> no_request ha -> In HCancel h1).
  { intros ha hb Hq NRq. destruct (Nat.eq_dec (cancels h1) 0) as [Z|Z]; [|apply cancels_In; lia].
    assert (NC : ~ In HCancel h1) by (intros Q; apply cancels_In in Q; lia). exfalso.
    destruct (hf_first _ _ _ _ _ _ _ _ _ F NC) as [->|(k & h' & ->)].
    - rewrite app_nil_r in Hq. apply NC. rewrite Hq. apply in_or_app. right. now left.
    - clear - Hq NRq NC. revert h1 Hq NC. induction ha as [|e ha IH]; intros h1 Hq NC.
      + destruct h1 as [|e1 h1]; cbn in Hq; [discriminate|]. assert (E1 : e1 = HCancel) by congruence. apply NC. left. exact E1.
      + destruct h1 as [|e1 h1]; cbn in Hq; injection Hq as E1 E2.
        * apply (NRq k). left. now symmetry.
        * apply (IH (fun i Hin => NRq i (or_intror Hin)) h1 E2). intro Q. apply NC. now right. }
  assert (CF : rw = Err cancel_failed -> r = Err cancel_failed) by (intros ->; exact R).
  assert (DN : r <> Err cancel_failed -> (cancels (h1 ++ h2) <= 1 \/ (exists ha hb, h1 ++ h2 = ha ++ HCancel :: hb /\ no_request ha /\ cancels (h1 ++ h2) <= 2)) -> forall i, In i ts -> task_done w' i = true).
  { intros NF C. rewrite cancels_app in C. destruct rw as [[]|e]; [now apply (hf_ok _ _ _ _ _ _ _ _ _ F)|].
    destruct (hf_errs _ _ _ _ _ _ _ _ _ F e eq_refl) as [->|[->| ->]]; [congruence| |now rewrite CF in NF].
    destruct (hf_canc _ _ _ _ _ _ _ _ _ F eq_refl) as [(Q & [AD|Q2])|(NC & Q2)]; [exact AD| |].
    - apply cancels_In in Q. destruct C as [C|(ha & hb & _ & _ & C)]; lia.
    - destruct C as [C|(ha & hb & Hq & NR & C)]; [lia|]. exfalso. exact (NC (H1C ha hb Hq NR)). }
  split; [exact DN|].
  assert (INV : forall i, In i ts -> task_done w' i = false -> rw <> Ok tt -> rw = Err CancelledError -> (cancels (h1 ++ h2) >= 2)%nat).
  { intros i Hi Di _ ->. rewrite cancels_app. destruct (hf_canc _ _ _ _ _ _ _ _ _ F eq_refl) as [(Q & [AD|Q2])|(NC & Q2)]; [|lia|lia].
    rewrite AD in Di by exact Hi. discriminate. }
  destruct rw as [[]|e].
  - destruct (hf_ok _ _ _ _ _ _ _ _ _ F eq_refl) as [AD NC].
    destruct R as [(os & -> & FA)|[(e & i & o & -> & Hi & Oi & -> & RR)|(-> & i & Hi & Di)]].
    + split; [exact FA|]. split; [discriminate|]. intros ha hb Q NR. exfalso. exact (NC (H1C ha hb Q NR)).
    + right; left. eauto.
    + rewrite AD in Di by exact Hi. discriminate.
  - destruct (hf_errs _ _ _ _ _ _ _ _ _ F e eq_refl) as [->|[->| ->]]; [congruence| |].
    + destruct R as [(os & -> & FA)|[(e & i & o & -> & Hi & Oi & -> & RR)|(-> & i & Hi & Di)]].
      * split; [exact FA|]. split; [|reflexivity]. intros _. apply in_or_app.
        destruct (hf_canc _ _ _ _ _ _ _ _ _ F eq_refl) as [(Q & _)|(_ & Q)]; [now left|right; apply cancels_In; lia].
      * right; left. eauto.
      * right; right. split; [reflexivity|]. apply (INV i Hi Di); [discriminate|reflexivity].
    + rewrite R. now left.
Qed.

(** runner.py 1075-1088: _wait. *)
Lemma b_inv {A B} (m : M A) (f : A -> M B) w r w' : bindM m f w r w' -> (exists a w1, m w (Ok a) w1 /\ f a w1 r w') \/ (exists e, m w (Err e) w' /\ r = Err e).
Proof. intros H. exact H. Qed.
Lemma wait_spec kill w r w' : wait kill w r w' -> p_results (w_x w) = None -> p_tasks (w_x w) <> [] ->
  exists h0 h, extends w (h0 ++ h) w' /\ only_req h0 /\ (kill = false -> h0 = []) /\ (kill = true -> forall i, In i (p_tasks (w_x w)) -> task_done w i = true \/ In (HReq i) h0)
  /\ p_ready (w_x w') = p_ready (w_x w) /\ p_closed (w_x w') = p_closed (w_x w)
  /\ (r <> Err cancel_failed -> (cancels h <= 1 \/ (exists ha hb, h = ha ++ HCancel :: hb /\ no_request ha /\ cancels h <= 2)) -> forall i, In i (p_tasks (w_x w)) -> task_done w' i = true)
  /\ match r with
     | Ok _ => exists c os, p_results (w_x w') = Some os /\ p_tasks (w_x w') = [] /\ p_cancelled (w_x w') = p_cancelled (w_x w) || c
                     /\ Forall2 (fun i o => task_out w' i = Some o /\ ~ reraised o) (p_tasks (w_x w)) os
                     /\ (c = true -> In HCancel h)
                     /\ (forall ha hb, h = ha ++ HCancel :: hb -> no_request ha -> c = true)
     | Err e => e = cancel_failed \/ (exists i, In i (p_tasks (w_x w)) /\ task_out w' i = Some (TFail e) /\ reraised (TFail (V := pval) e))
                \/ (e = InvalidStateError /\ cancels h >= 2)
     end.
Proof.
  intros H RN TN. unfold wait in H. apply b_inv in H as [([] & w1 & H1 & H)|(e & H1 & ->)].
  2:{ apply b_inv in H1 as [(a & w1 & [Q ->] & H1)|(e' & [Q _] & _)]; [|discriminate]. injection Q as ->. rewrite RN in H1. destruct H1 as [Q _]. discriminate. }
  apply b_inv in H1 as [(a & w2 & [Q ->] & H1)|(e' & [Q _] & _)]; [|discriminate]. injection Q as ->. rewrite RN in H1. destruct H1 as [_ ->].
  apply b_inv in H as [(ts & w2 & [Q ->] & H)|(e' & [Q _] & _)]; [|discriminate]. injection Q as ->. set (ts := p_tasks (w_x w)) in *.
  assert (K : exists w1 h0, extends w h0 w1 /\ w_x w1 = w_x w /\ only_req h0 /\ (kill = false -> h0 = []) /\ (kill = true -> forall i, In i ts -> task_done w i = true \/ In (HReq i) h0)
     /\ bindM (harvest_results (map AwTask ts) false) (fun cr => modx (set_results (snd cr)) ;; when (fst cr) (modx set_pcancelled) ;; modx (set_tasks [])) w1 r w').
  { apply b_inv in H as [([] & w1 & H1 & H)|(e & H1 & ->)].
    - destruct kill; cbn [when] in H1.
      + apply for_cancel_spec in H1 as (_ & _ & Ex & h & E & Q & N). exists w1, h. repeat (split; [assumption|]). split; [discriminate|]. split; [|exact H].
        intros _ i Hi. destruct (task_done w i) eqn:D; [now left|]. right. apply N. auto.
      + destruct H1 as [_ ->]. exists w, []. split; [apply extends_refl|]. split; [reflexivity|]. split; [intros e []|]. split; [reflexivity|]. split; [discriminate|exact H].
    - destruct kill; cbn [when] in H1; [apply for_cancel_spec in H1 as (Q & _); discriminate|destruct H1; discriminate]. }
  destruct K as (w1 & h0 & E0 & X0 & OR & K0 & K1 & H2). clear H. exists h0.
  apply b_inv in H2 as [([c os] & w2 & H2 & H)|(e & H2 & ->)].
  - apply harvest_spec in H2 as (h & E & SP & DN & R); [|exact TN]. rewrite X0 in SP. destruct SP as (P1 & P2 & P3 & P4 & P5). destruct R as (FA & C1 & C2).
    apply b_inv in H as [([] & w3 & [_ ->] & H)|(e & [Q _] & _)]; [|discriminate].
    assert (G : exists x4, w' = mk_world (w_tasks w2) (set_tasks [] x4) (w_hist w2) /\ r = Ok tt /\ p_results x4 = Some os /\ p_cancelled x4 = p_cancelled (w_x w2) || c
       /\ p_ready x4 = p_ready (w_x w2) /\ p_closed x4 = p_closed (w_x w2)).
    { apply b_inv in H as [([] & w3 & H1 & [-> ->])|(e & H1 & ->)]; destruct c; cbn [fst when] in H1; destruct H1 as [Q ->]; try discriminate Q;
        (eexists; split; [reflexivity|]; cbn; rewrite ?orb_true_r, ?orb_false_r; repeat split; reflexivity). }
    destruct G as (x4 & -> & -> & G1 & G2 & G3 & G4). clear H.
    assert (TO : forall i, task_out (mk_world (w_tasks w2) (set_tasks [] x4) (w_hist w2)) i = task_out w2 i) by reflexivity.
    exists h. split; [|split; [exact OR|split; [exact K0|split; [exact K1|split; [|split; [|split]]]]]].
    + destruct (extends_trans _ _ _ _ _ E0 E) as (A1 & A2 & A3). split; [exact A1|]. split; [exact A2|exact A3].
    + cbn. congruence.
    + cbn. congruence.
    + intros _ C. apply DN; [discriminate|exact C].
    + exists c, os. cbn. rewrite G1, G2, P2. repeat split; auto.
  - apply harvest_spec in H2 as (h & E & SP & DN & R); [|exact TN]. rewrite X0 in SP. destruct SP as (P1 & P2 & P3 & P4 & P5).
    exists h. split; [exact (extends_trans _ _ _ _ _ E0 E)|]. split; [exact OR|]. split; [exact K0|]. split; [exact K1|]. split; [exact P4|]. split; [exact P5|]. split; [|exact R].
    intros NF. apply DN. congruence.
Qed.

(** ** Starting *)
Definition cmd_task (j : nat) : task pkind pval := mk_task (KCmd j) None 0.
Lemma add_tasks l : forall w r w', for_ l (fun j => add_task (KCmd j)) w r w' ->
  r = Ok tt /\ w' = mk_world (w_tasks w ++ map cmd_task l) (set_tasks (p_tasks (w_x w) ++ seq (List.length (w_tasks w)) (List.length l)) (w_x w)) (w_hist w).
Proof.
  induction l as [|j l IH]; intros w r w' H; cbn [for_] in H.
  - destruct H as [-> ->]. cbn. rewrite !app_nil_r. split; [reflexivity|]. destruct w as [t [] h]; reflexivity.
  - apply b_inv in H as [([] & w1 & H1 & H)|(e & H1 & ->)].
    + apply b_inv in H1 as [(i & w2 & [Q ->] & [_ ->])|(e & [Q _] & _)]; [|discriminate]. injection Q as ->.
      apply IH in H as [-> ->]. split; [reflexivity|]. cbn. rewrite <- !app_assoc, app_length. cbn. rewrite Nat.add_1_r. reflexivity.
    + apply b_inv in H1 as [(i & w2 & [Q ->] & [Q' _])|(e' & [Q _] & _)]; discriminate.
Qed.
Definition off (capturing : bool) : nat := if capturing then 2 else 0.
Definition first_table (n : nat) (capturing : bool) : list (task pkind pval) :=
  (if capturing then [mk_task (KFut 0) None 0; mk_task (KFut (n - 1)) None 0] else []) ++ map cmd_task (seq 0 n).
Definition begun (n : nat) (capturing : bool) : world := mk_world (first_table n capturing) (set_tasks (seq (off capturing) n) px0) [].
Lemma seq_split n : n >= 2 -> seq 0 n = 0 :: seq 1 (n - 2) ++ [n - 1].
Proof.
  intros H. destruct n as [|[|n]]; try lia. change (seq 0 (S (S n))) with (0 :: seq 1 (S n)). f_equal. replace (S (S n) - 2) with n by lia. rewrite seq_S. reflexivity.
Qed.

Lemma start_spec n capturing r w' : n >= 2 -> start n (Ok tt) capturing pw0 r w' ->
  (capturing = false /\ r = Ok tt /\ w' = mk_world (first_table n false) (set_ready (set_tasks (seq 0 n) px0)) [])
  \/ (capturing = true /\ exists h w1, extends (begun n true) h w1 /\ no_req h /\ same_px (set_tasks (seq 2 n) px0) (w_x w1)
      /\ ((r = Ok tt /\ ~ In HCancel h /\ task_done w1 0 = true /\ task_done w1 1 = true /\ w' = mk_world (w_tasks w1) (set_ready (w_x w1)) (w_hist w1))
          \/ (r = Err CancelledError /\ In HCancel h /\ w' = mk_world (w_tasks w1) (closed_again (w_x w1)) (w_hist w1)))).
Proof.
  intros N H. destruct capturing.
  - right. split; [reflexivity|].
    assert (S : forall r1 w2, setup_capturing n pw0 r1 w2 -> await_wait [0; 1] false ALL_COMPLETED (begun n true) (match r1 with Ok _ => Ok (filter (task_done w2) (nodup Nat.eq_dec [0; 1]), pending_of w2 [0; 1]) | Err e => Err e end) w2 \/
       exists dp, r1 = Ok tt /\ await_wait [0; 1] false ALL_COMPLETED (begun n true) (Ok dp) w2).
    { intros r1 w2 S. unfold setup_capturing in S. apply b_inv in S as [(f1 & u1 & [Q ->] & S)|(e & [Q _] & _)]; [|discriminate]. injection Q as ->.
      apply b_inv in S as [(f2 & u1 & [Q ->] & S)|(e & [Q _] & _)]; [|discriminate]. injection Q as ->. cbn in S.
      apply b_inv in S as [([] & u1 & S1 & S)|(e & S1 & _)]; (apply b_inv in S1 as [(i & u2 & [Q ->] & [Q' ->])|(e' & [Q _] & _)]; [|discriminate]); [|discriminate]. injection Q as ->. cbn in S.
      apply b_inv in S as [([] & u1 & S1 & S)|(e & S1 & _)]; apply add_tasks in S1 as [Q ->]; [|discriminate]. cbn in S.
      apply b_inv in S as [([] & u1 & S1 & S)|(e & S1 & _)]; (apply b_inv in S1 as [(i & u2 & [Qa ->] & [Qb ->])|(e' & [Qa _] & _)]; [|discriminate]); [|discriminate]. injection Qa as ->. cbn in S.
      assert (W : mk_world (mk_task (KFut 0) None 0 :: mk_task (KFut (n - 1)) None 0 :: mk_task (KCmd 0) None 0 :: map cmd_task (seq 1 (n - 2)) ++ [cmd_task (n - 1)])
         (set_tasks ((2 :: seq 3 (List.length (seq 1 (n - 2)))) ++ [3 + List.length (map cmd_task (seq 1 (n - 2)))]) px0) [] = begun n true).
      { unfold begun, first_table. rewrite (seq_split n N) at 1. cbn [app map off]. rewrite map_app. cbn [map].
        rewrite map_length, !seq_length. f_equal. f_equal. destruct n as [|[|m]]; try lia. replace (Datatypes.S (Datatypes.S m) - 2) with m by lia.
        change (seq 2 (Datatypes.S (Datatypes.S m))) with (2 :: seq 3 (Datatypes.S m)). rewrite seq_S. reflexivity. }
      match type of S with bindM _ _ ?u _ _ => change u with (mk_world (mk_task (KFut 0) None 0 :: mk_task (KFut (n - 1)) None 0 :: mk_task (KCmd 0) None 0 :: map cmd_task (seq 1 (n - 2)) ++ [cmd_task (n - 1)])
         (set_tasks ((2 :: seq 3 (List.length (seq 1 (n - 2)))) ++ [3 + List.length (map cmd_task (seq 1 (n - 2)))]) px0) [] : world) in S end.
      rewrite W in S.
      apply b_inv in S as [(dp & u1 & S1 & [-> ->])|(e & S1 & ->)]; [|left; exact S1]. right. exists dp. auto. }
    destruct H as [(a & H & ->)|(e & w1 & H & H')].
    + apply b_inv in H as [([] & u & [_ ->] & H)|(e & _ & Q)]; [|discriminate].
      apply b_inv in H as [([] & u & H & [Q ->])|(e & _ & Q)]; [|discriminate]. injection Q as ->. apply S in H.
      assert (H' : exists dp, await_wait [0; 1] false ALL_COMPLETED (begun n true) (Ok dp) u) by (destruct H as [H|(dp & _ & H)]; eauto). clear H. destruct H' as (dp & H).
      pose proof (k_await_wait _ _ _ (same_px_stable (set_tasks (seq 2 n) px0)) _ _ _ (begun n true) _ _ (same_px_refl _) H) as SP.
      apply await_wait_spec in H as (h & E & NR & T & [(Q & _)|(Q & NC & D)]); try discriminate. exists h, u. repeat (split; [assumption|]).
      left. split; [reflexivity|]. split; [exact NC|].
      assert (PN : pending_of u [0; 1] = []) by (destruct D as [D|[D|(D & _)]]; [exact D|apply T in D; discriminate|discriminate]).
      rewrite pending_nil in PN. split; [apply PN; cbn; auto|]. split; [apply PN; cbn; auto|reflexivity].
    + apply b_inv in H as [([] & u & [_ ->] & H)|(e' & [Q _] & _)]; [|discriminate Q].
      apply b_inv in H as [([] & u & _ & [Q _])|(e' & H & Q)]; [discriminate|]. injection Q as <-. apply S in H as [H|(dp & Q & _)]; [|discriminate].
      pose proof (k_await_wait _ _ _ (same_px_stable (set_tasks (seq 2 n) px0)) _ _ _ (begun n true) _ _ (same_px_refl _) H) as SP.
      apply await_wait_spec in H as (h & E & NR & T & [(Q & C)|(Q & NC & D)]); try discriminate. injection Q as ->. exists h, w1. repeat (split; [assumption|]).
      right. apply b_inv in H' as [([] & u & [_ ->] & [-> ->])|(e' & [Q _] & _)]; [|discriminate]. auto.
  - left. split; [reflexivity|].
    destruct H as [(a & H & ->)|(e & w1 & H & H')].
    + apply b_inv in H as [([] & u & [_ ->] & H)|(e & _ & Q)]; [|discriminate].
      apply b_inv in H as [([] & u & H & [Q ->])|(e & _ & Q)]; [|discriminate]. injection Q as ->. apply add_tasks in H as [_ ->]. cbn. rewrite seq_length. auto.
    + apply b_inv in H as [([] & u & [_ ->] & H)|(e' & [Q _] & _)]; [|discriminate Q].
      apply b_inv in H as [([] & u & _ & [Q _])|(e' & H & Q)]; [discriminate|]. apply add_tasks in H as [Q' _]. discriminate.
Qed.
