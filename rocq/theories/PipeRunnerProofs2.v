From Verif Require Import AsyncSpec AsyncProofs HarvestModel HarvestSpec HarvestProofs HarvestProofs2 AsyncInv PipeRunnerModel PipeRunnerProofs.
Open Scope nat_scope.

(** While the pipeline runs. *)
Record running (n : nat) (cap : bool) (h : list (hev pval)) (w : world) : Prop := {
  ru_ext : extends (begun n cap) h w;
  ru_noreq : no_req h;
  ru_tasks : p_tasks (w_x w) = seq (off cap) n;
  ru_canc : p_cancelled (w_x w) = false;
  ru_res : p_results (w_x w) = None;
  ru_closed : p_closed (w_x w) = 0 }.

Lemma ext_x (w w1 : world) h x : extends w h w1 -> extends w h (mk_world (w_tasks w1) x (w_hist w1)).
Proof. intros (A & B & C). split; [exact A|]. split; [exact B|exact C]. Qed.
Lemma seq_ne k n : n >= 2 -> seq k n <> [].
Proof. destruct n; [lia|discriminate]. Qed.
Lemma wait_not_cancelled kill w w' : wait kill w (Err CancelledError) w' -> p_results (w_x w) = None -> p_tasks (w_x w) <> [] -> False.
Proof.
  intros H A B. destruct (wait_spec _ _ _ _ H A B) as (h0 & h & _ & _ & _ & _ & _ & _ & _ & [Q|[(i & _ & _ & [Q|(m & Q)])|(Q & _)]]); discriminate Q.
Qed.

Lemma aenter_ok n cap w' : n >= 2 -> aenter n (Ok tt) cap pw0 (Ok tt) w' -> exists h, running n cap h w' /\ ~ In HCancel h /\ (cap = true -> task_done w' 0 = true /\ task_done w' 1 = true).
Proof.
  intros N H. destruct H as [(a & H & _)|(e & w1 & H & H')].
  - apply (start_spec n cap _ _ N) in H as [(-> & _ & ->)|(-> & h & w1 & E & NR & SP & [(_ & NC & D0 & D1 & ->)|(Q & _)])]; [| |discriminate].
    + exists []. split; [|split; [auto|discriminate]]. split; [|apply no_req_nil|reflexivity..]. exact (ext_x _ _ _ _ (extends_refl (begun n false))).
    + exists h. destruct SP as (A & B & C & D & F). split; [|split; [exact NC|auto]]. split; [now apply ext_x|exact NR|exact A|exact B|exact C|exact F].
  - destruct (is_Exception e || is_cancelled e); [|destruct H'; discriminate].
    apply b_inv in H' as [([] & u & _ & H')|(e' & _ & Q)]; [|discriminate]. apply b_inv in H' as [([] & u2 & _ & [Q _])|(e' & _ & Q)]; discriminate.
Qed.

Lemma aenter_err n cap e w' : n >= 2 -> aenter n (Ok tt) cap pw0 (Err e) w' -> cap = true /\ exists h1 h0 h2,
  extends (begun n true) (h1 ++ h0 ++ h2) w' /\ In HCancel h1 /\ only_req h0
  /\ p_closed (w_x w') = 1
  /\ (e <> cancel_failed -> cancels h2 <= 1 -> forall i, In i (seq 2 n) -> task_done w' i = true)
  /\ (e = CancelledError \/ e = cancel_failed \/ (exists i, In i (seq 2 n) /\ task_out w' i = Some (TFail e) /\ reraised (TFail (V := pval) e))
      \/ (e = InvalidStateError /\ cancels h2 >= 2)).
Proof.
  intros N H. destruct H as [(a & _ & Q)|(e0 & w1 & H & H')]; [discriminate|].
  apply (start_spec n cap _ _ N) in H as [(-> & Q & _)|(-> & h & w2 & E & NR & SP & [(Q & _)|(Q & C & ->)])]; [discriminate..|]. injection Q as ->.
  split; [reflexivity|]. exists h. destruct SP as (S1 & S2 & S3 & S4 & S5). cbn in H'.
  apply b_inv in H' as [([] & u & [_ ->] & H')|(e' & [Q _] & _)]; [|discriminate].
  assert (TS : p_tasks (set_pcancelled (closed_again (w_x w2))) = seq 2 n) by exact S1.
  apply b_inv in H' as [([] & u2 & W & [Q ->])|(e' & W & Q)].
  - injection Q as ->. apply wait_spec in W as (h0 & h2 & E2 & OR & _ & _ & _ & PC & DN & _); [|exact S3|cbn [w_x]; rewrite TS; now apply seq_ne].
    exists h0, h2. cbn [w_x] in DN, PC. rewrite TS in DN. split; [exact (extends_trans _ _ _ _ _ (ext_x _ _ _ _ E) E2)|]. split; [exact C|]. split; [exact OR|].
    split; [rewrite PC; cbn; now rewrite S5|]. split; [|now left]. intros _ Q. apply DN; [discriminate|now left].
  - injection Q as <-. apply wait_spec in W as (h0 & h2 & E2 & OR & _ & _ & _ & PC & DN & R); [|exact S3|cbn [w_x]; rewrite TS; now apply seq_ne].
    exists h0, h2. cbn [w_x] in DN, PC, R. rewrite TS in DN, R. split; [exact (extends_trans _ _ _ _ _ (ext_x _ _ _ _ E) E2)|]. split; [exact C|]. split; [exact OR|].
    split; [rewrite PC; cbn; now rewrite S5|]. split; [|right; exact R]. intros NF Q. apply DN; [congruence|now left].
Qed.

Lemma body_run n cap w w' : body_steps w w' -> forall h, running n cap h w -> exists h', running n cap (h ++ h') w' /\ w_hist w' = w_hist w ++ h'.
Proof.
  induction 1 as [w|w ev w1 c w2 E _ IH]; intros h R.
  - exists []. rewrite !app_nil_r. auto.
  - destruct (env_step_ext _ _ _ _ _ _ E) as (h1 & E1 & NR & _). destruct R as [Q1 Q2 Q3 Q4 Q5 Q6].
    assert (SP : same_px (w_x w) (w_x w1)).
    { exact (st_env _ _ _ (same_px_stable (w_x w)) _ _ _ _ (same_px_refl _) E). }
    destruct SP as (A & B & C & D & F). destruct (IH (h ++ h1)) as (h2 & R2 & HH).
    + split; [exact (extends_trans _ _ _ _ _ Q1 E1)|now apply no_req_app|congruence..].
    + exists (h1 ++ h2). rewrite app_assoc. split; [exact R2|]. rewrite HH, (proj1 E1), app_assoc. reflexivity.
Qed.

Definition fatal (ts : list nat) (h2 : list (hev pval)) (w' : world) (e : exn) : Prop :=
  e = cancel_failed \/ (exists i, In i ts /\ task_out w' i = Some (TFail e) /\ reraised (TFail (V := pval) e)) \/ (e = InvalidStateError /\ cancels h2 >= 2).
Lemma aexit_spec n cap exc h w r w' : n >= 2 -> running n cap h w -> aexit exc w r w' ->
  exists h0 h2, extends w (h0 ++ h2) w' /\ only_req h0 /\ (exc = None -> h0 = [])
  /\ (exc <> None -> forall i, In i (seq (off cap) n) -> task_done w i = true \/ In (HReq i) h0)
  /\ (r <> Err cancel_failed -> (cancels h2 <= 1 \/ (exists ha hb, h2 = ha ++ HCancel :: hb /\ no_request ha /\ cancels h2 <= 2)) -> forall i, In i (seq (off cap) n) -> task_done w' i = true)
  /\ p_closed (w_x w') = 0
  /\ match r with
     | Ok b => exists c os, p_results (w_x w') = Some os /\ p_tasks (w_x w') = []
         /\ p_cancelled (w_x w') = (match exc with Some e => is_cancelled e | None => false end) || c
         /\ b = match exc with Some _ => p_cancelled (w_x w') | None => false end
         /\ Forall2 (fun i o => task_out w' i = Some o /\ ~ reraised o) (seq (off cap) n) os
         /\ (c = true -> In HCancel h2)
         /\ (forall ha hb, h2 = ha ++ HCancel :: hb -> no_request ha -> c = true)
     | Err e => fatal (seq (off cap) n) h2 w' e
     end.
Proof.
  intros N [E NR PT PC PR PL] H.
  assert (NE : p_tasks (w_x w) <> []) by (rewrite PT; now apply seq_ne).
  assert (F : finish exc w r w' /\ r <> Err CancelledError).
  { assert (G : forall u, finish exc w (Err CancelledError) u -> False).
    { intros u G. destruct exc as [e|]; cbn [finish] in G.
      - apply b_inv in G as [([] & w1 & G1 & G)|(e' & G1 & _)].
        + assert (X1 : p_results (w_x w1) = None /\ p_tasks (w_x w1) <> []) by (destruct (is_cancelled e); cbn in G1; destruct G1 as [_ ->]; auto).
          apply b_inv in G as [([] & w2 & G2 & [Q _])|(e' & G2 & Q)]; [discriminate|]. injection Q as <-. now apply (wait_not_cancelled _ _ _ G2).
        + destruct (is_cancelled e); cbn in G1; destruct G1; discriminate.
      - apply b_inv in G as [([] & w2 & G2 & [Q _])|(e' & G2 & Q)]; [discriminate|]. injection Q as <-. now apply (wait_not_cancelled _ _ _ G2). }
    destruct H as [(a & H & ->)|(e & w1 & H & H')]; [split; [exact H|discriminate]|].
    destruct (is_cancelled e) eqn:IC; [destruct e; try discriminate IC; destruct (G _ H)|]. destruct H' as [-> ->]. split; [exact H|]. intros Q. injection Q as ->. discriminate. }
  clear H. destruct F as [H _]. destruct exc as [e|]; cbn [finish] in H.
  - apply b_inv in H as [([] & w1 & H1 & H)|(e' & H1 & _)]; [|destruct (is_cancelled e); cbn in H1; destruct H1; discriminate].
    assert (X1 : w1 = mk_world (w_tasks w) (if is_cancelled e then set_pcancelled (w_x w) else w_x w) (w_hist w)).
    { destruct (is_cancelled e); cbn in H1; destruct H1 as [_ ->]; [reflexivity|now destruct w]. }
    assert (P1 : p_tasks (w_x w1) = seq (off cap) n) by (rewrite X1; destruct (is_cancelled e); exact PT).
    assert (P2 : p_results (w_x w1) = None) by (rewrite X1; destruct (is_cancelled e); exact PR).
    assert (P3 : p_cancelled (w_x w1) = is_cancelled e) by (rewrite X1; destruct (is_cancelled e); [reflexivity|exact PC]).
    assert (P4 : p_closed (w_x w1) = 0) by (rewrite X1; destruct (is_cancelled e); exact PL).
    assert (E1 : extends w [] w1) by (rewrite X1; apply ext_x, extends_refl).
    assert (TD : forall i, task_done w1 i = task_done w i) by (rewrite X1; reflexivity).
    apply b_inv in H as [([] & w2 & W & [-> ->])|(e' & W & ->)]; (apply wait_spec in W as (h0 & h2 & E2 & OR & _ & K & _ & CL & DN & R); [|exact P2|rewrite P1; now apply seq_ne]);
      rewrite P1 in *; exists h0, h2; (split; [exact (extends_trans _ _ _ _ _ E1 E2)|]); (split; [exact OR|]); (split; [discriminate|]);
      (split; [intros _ i Hi; rewrite <- TD; now apply K|]).
    + split; [intros _; apply DN; discriminate|]. split; [first [rewrite CL, P4|rewrite CL]; assumption || reflexivity|]. destruct R as (c & os & R1 & R2 & R3 & R4 & R5 & R6). exists c, os. rewrite P3 in R3. repeat (split; [assumption|]). split; [reflexivity|]. auto.
    + split; [intros NF; apply DN; congruence|]. split; [first [rewrite CL, P4|rewrite CL]; assumption || reflexivity|exact R].
  - apply b_inv in H as [([] & w2 & W & [-> ->])|(e' & W & ->)]; (apply wait_spec in W as (h0 & h2 & E2 & OR & K0 & K & _ & CL & DN & R); [|exact PR|exact NE]);
      rewrite PT in *; exists h0, h2; (split; [exact E2|]); (split; [exact OR|]); (split; [auto|]); (split; [congruence|]).
    + split; [intros _; apply DN; discriminate|]. split; [first [rewrite CL, P4|rewrite CL]; assumption || reflexivity|]. destruct R as (c & os & R1 & R2 & R3 & R4 & R5 & R6). exists c, os. rewrite PC in R3. repeat (split; [assumption|]). split; [reflexivity|]. auto.
    + split; [intros NF; apply DN; congruence|]. split; [first [rewrite CL, P4|rewrite CL]; assumption || reflexivity|exact R].
Qed.

(** ** No tasks to wait for *)
Definition empty_set : exn := ValueError "Set of Tasks/Futures is empty.".
Lemma t_inv {A} (m : M A) h w r w' : tryM m h w r w' -> (exists a, m w (Ok a) w' /\ r = Ok a)
  \/ (exists e w1, m w (Err e) w1 /\ match h e with Some k => k w1 r w' | None => r = Err e /\ w' = w1 end).
Proof. intros H. exact H. Qed.
Lemma wait_nil t m (w : world) r w' : await_wait [] t m w r w' -> r = Err empty_set /\ w' = w.
Proof. intros H. exact H. Qed.
Lemma hw_nil (w : world) r w' : harvest_wait pstep pfinish [] false false w r w' -> r = Err empty_set /\ w' = w.
Proof.
  intros H. unfold harvest_wait in H.
  assert (T : forall r1 w1, tryM (bindM (await_wait [] false FIRST_EXCEPTION) (fun dp => bindM getM (fun w => ret (dp, time_expired w (fst dp) (snd dp)))))
     (fun e => match e with CancelledError => Some (bindM (cancel_wait pstep pfinish [] false) (fun _ => bindM (consume_exceptions []) (fun _ => raise CancelledError))) | _ => None end) w r1 w1
     -> r1 = Err empty_set /\ w1 = w).
  { intros r1 w1 T. apply t_inv in T as [(a & T & _)|(e & w2 & T & K)]; apply b_inv in T as [(dp & w3 & T & _)|(e' & T & Q)]; apply wait_nil in T as [Q' ->]; try discriminate.
    injection Q' as ->. injection Q as ->. exact K. }
  apply b_inv in H as [(a & w1 & H & _)|(e & H & ->)]; apply T in H as [Q ->]; [discriminate|]. injection Q as ->. auto.
Qed.
Lemma hr_nil (w : world) r w' : harvest_results [] false w r w' -> r = Err empty_set /\ w' = w.
Proof.
  intros H. apply b_inv in H as [(l & u & [Q ->] & H)|(e1 & [Q _] & _)]; [|discriminate]. injection Q as ->.
  apply b_inv in H as [(c & u & H & _)|(e & H & ->)]; apply t_inv in H as [(a & H & Q)|(e1 & w2 & H & K)]; try discriminate;
    (apply b_inv in H as [(x & w3 & H & Q')|(e' & H & Q')]; apply hw_nil in H as [Q2 ->]; try discriminate).
  - injection Q2 as ->. injection Q' as ->. destruct K; discriminate.
  - injection Q2 as ->. injection Q' as ->. destruct K as [Q ->]. injection Q as ->. auto.
Qed.
Lemma setup_failed : forall n capturing e r w', is_Exception e = true ->
  aenter n (Err e) capturing pw0 r w' ->
  r = Err (ValueError "Set of Tasks/Futures is empty.") /\ w_tasks w' = [] /\ p_closed (w_x w') = 1.
Proof.
  intros n cap e r w' IE H.
  assert (S : forall r1 w1, start n (Err e) cap pw0 r1 w1 -> r1 = Err e /\ w1 = mk_world [] (closed_again px0) []).
  { clear. intros r1 w1 H. apply t_inv in H as [(a & H & Q)|(e1 & w2 & H & K)].
    - apply b_inv in H as [([] & u & [Q1 _] & _)|(e1 & _ & Q1)]; discriminate.
    - apply b_inv in H as [([] & u & [Q1 _] & _)|(e2 & [Q1 ->] & Q2)]; [discriminate|]. injection Q1 as ->. injection Q2 as ->.
      apply b_inv in K as [([] & u & [_ ->] & [-> ->])|(e2 & [Q _] & _)]; [|discriminate]. split; reflexivity. }
  apply t_inv in H as [(a & H & _)|(e0 & w1 & H & K)]; apply S in H as [Q ->]; [discriminate|]. injection Q as ->. rewrite IE in K. cbn [orb] in K.
  assert (IC : is_cancelled e = false) by (destruct e; try reflexivity; discriminate IE). rewrite IC in K.
  apply b_inv in K as [([] & u & [_ ->] & K)|(e1 & [Q _] & _)]; [|discriminate].
  assert (W : forall r1 w2, wait true (mk_world [] (closed_again px0) []) r1 w2 -> r1 = Err empty_set /\ w2 = mk_world [] (closed_again px0) []).
  { clear. intros r1 w2 H. apply b_inv in H as [([] & u & H1 & H)|(e1 & H1 & _)];
      (apply b_inv in H1 as [(a & u1 & [Q ->] & H1)|(e2 & [Q _] & _)]; [|discriminate]); injection Q as ->; destruct H1 as [Q ->]; [|discriminate].
    apply b_inv in H as [(ts & u & [Qt ->] & H)|(e1 & [Q1 _] & _)]; [|discriminate]. injection Qt as ->.
    apply b_inv in H as [([] & u & [_ ->] & H)|(e1 & [Q1 _] & _)]; [|discriminate].
    apply b_inv in H as [(cr & u & H & _)|(e1 & H & ->)]; apply hr_nil in H as [Q2 ->]; [discriminate|]. injection Q2 as ->. split; reflexivity. }
  apply b_inv in K as [([] & u & H1 & _)|(e1 & H1 & ->)]; apply W in H1 as [Q ->]; [discriminate|]. injection Q as ->. split; [reflexivity|]. split; reflexivity.
Qed.

(** ** Awaiting a pipeline *)
Lemma run_pipeline_spec n o r w' : n >= 2 -> run_pipeline n (Ok tt) o pw0 r w' ->
  exists h, extends (begun n false) h w' /\
  ((exists os c, Forall2 (fun i out => task_out w' i = Some out /\ ~ reraised out) (seq 0 n) os /\ r = pipe_run_result (map entry os) o c
     /\ (c = true -> In HCancel h) /\ (forall ha hb, h = ha ++ HCancel :: hb -> no_request ha -> c = true))
   \/ (exists e, r = Err e /\ fatal (seq 0 n) h w' e)).
Proof.
  intros N H.
  assert (W : forall rp w1, with_pipe n (Ok tt) false (ret tt) pw0 rp w1 -> exists h, extends (begun n false) h w1 /\
    match rp with
    | Ok _ => exists os c, p_results (w_x w1) = Some os /\ p_cancelled (w_x w1) = c /\ Forall2 (fun i out => task_out w1 i = Some out /\ ~ reraised out) (seq 0 n) os
        /\ (c = true -> In HCancel h) /\ (forall ha hb, h = ha ++ HCancel :: hb -> no_request ha -> c = true)
    | Err e => fatal (seq 0 n) h w1 e
    end).
  { clear H. intros rp w1 H. apply b_inv in H as [([] & w0 & H & rb & w2 & [-> ->] & K)|(e & H & ->)]; [|destruct (aenter_err _ _ _ _ N H) as (Q & _); discriminate].
    destruct (start_spec n false (Ok tt) w0 N) as [(_ & _ & W0)|(Q & _)]; [|subst w0|discriminate].
    { destruct H as [([] & H & Q)|(e & w3 & H & _)]; [exact H|]. apply (start_spec n false _ _ N) in H as [(_ & Q & _)|(Q & _)]; discriminate. }
    assert (R : running n false [] (mk_world (first_table n false) (set_ready (set_tasks (seq 0 n) px0)) [])).
    { split; [|apply no_req_nil|reflexivity..]. exact (ext_x _ _ _ _ (extends_refl (begun n false))). }
    pose proof (ru_ext _ _ _ _ R) as E.
    apply b_inv in K as [(b & w2 & K & [-> ->])|(e & K & ->)]; destruct (aexit_spec _ _ _ _ _ _ _ N R K) as (h0 & h2 & E2 & _ & Z & _ & _ & _ & S); rewrite (Z eq_refl) in *; cbn [app] in E2;
      exists h2; (split; [exact (extends_trans _ _ _ _ _ E E2)|]).
    - destruct S as (c & os & S1 & _ & S3 & _ & S5 & S6 & S7). exists os, c. auto.
    - exact S. }
  apply b_inv in H as [([] & w1 & H & K)|(e & H & ->)]; apply W in H as (h & E & R); exists h.
  - destruct R as (os & c & R1 & R2 & R3 & R4 & R5). assert (P : r = pipe_run_result (map entry os) o c /\ w' = w1).
    { apply b_inv in K as [(a & u & [Q ->] & K)|(e & [Q _] & _)]; [|discriminate]. injection Q as ->. rewrite R1 in K.
      apply b_inv in K as [(c' & u & [Q ->] & K)|(e & [Q _] & _)]; [|discriminate]. injection Q as ->. rewrite R2 in K.
      destruct (pipe_run_result (map entry os) o c); destruct K; auto. }
    destruct P as [-> ->]. split; [exact E|]. left. exists os, c. auto.
  - split; [exact E|]. right. eauto.
Qed.

(** ** Both ends ready *)
Lemma wait_run_app mode tgt evs1 : forall evs2 c c1, wait_run pstep pfinish mode tgt c evs1 = Some c1 ->
  wait_run pstep pfinish mode tgt c (evs1 ++ evs2) = wait_run pstep pfinish mode tgt c1 evs2.
Proof.
  induction evs1 as [|e l IH]; intros evs2 c c1 H; cbn in *; [now injection H as ->|].
  destruct (wait_step pstep pfinish mode tgt c e); [now apply IH|discriminate].
Qed.
Lemma for_adds l : forall w : world, for_ l (fun j => add_task (KCmd j)) w (Ok tt)
  (mk_world (w_tasks w ++ map cmd_task l) (set_tasks (p_tasks (w_x w) ++ seq (List.length (w_tasks w)) (List.length l)) (w_x w)) (w_hist w)).
Proof.
  intros w. assert (H : exists r w', for_ l (fun j => add_task (KCmd j)) w r w').
  { revert w. induction l as [|j l IH]; intros w; [do 2 eexists; split; reflexivity|].
    assert (A : exists w1, add_task (KCmd j) w (Ok tt) w1) by (eexists; eapply b_bind; split; reflexivity).
    destruct A as (w1 & A). destruct (IH w1) as (r & w' & B). exists r, w'. cbn [for_]. eapply b_bind; [exact A|exact B]. }
  destruct H as (r & w' & H). pose proof (add_tasks _ _ _ _ H) as [-> ->]. exact H.
Qed.
Lemma add_one j (w : world) : add_task (KCmd j) w (Ok tt) (mk_world (w_tasks w ++ [cmd_task j]) (set_tasks (p_tasks (w_x w) ++ [List.length (w_tasks w)]) (w_x w)) (w_hist w)).
Proof. eapply b_bind; split; reflexivity. Qed.
Lemma ready_enters n evs w s : n >= 2 ->
  wait_run pstep pfinish ALL_COMPLETED None (begun n true, mk_wst [0; 1] false false false) evs = Some (w, s) ->
  task_done w 0 = true -> task_done w 1 = true -> s_canc s = false ->
  exists w', aenter n (Ok tt) true pw0 (Ok tt) w' /\ w_hist w' = w_hist w /\ w_tasks w' = w_tasks w.
Proof.
  intros N H D0 D1 C.
  assert (W : exists dp, await_wait [0; 1] false ALL_COMPLETED (begun n true) (Ok dp) w).
  { assert (S : NoDup (s_cbs s) /\ (forall i, In i (s_cbs s) -> In i [0; 1]) /\ (s_cbs s = [] -> s_fired s = true)).
    { assert (G : forall evs c, NoDup (s_cbs (snd c)) /\ (forall i, In i (s_cbs (snd c)) -> In i [0; 1]) /\ (s_cbs (snd c) = [] -> s_fired (snd c) = true) -> forall c',
         wait_run pstep pfinish ALL_COMPLETED None c evs = Some c' -> NoDup (s_cbs (snd c')) /\ (forall i, In i (s_cbs (snd c')) -> In i [0; 1]) /\ (s_cbs (snd c') = [] -> s_fired (snd c') = true)).
      { clear. induction evs as [|e evs IH]; intros c P c' R; cbn in R; [now injection R as <-|].
        destruct (wait_step pstep pfinish ALL_COMPLETED None c e) as [c1|] eqn:E; [|discriminate]. apply (IH c1); [|exact R]. clear IH R.
        destruct c as [w s]. destruct P as (P1 & P2 & P3). cbn in P1, P2, P3. destruct e as [ev|i|]; cbn [wait_step] in E.
        - destruct (env_step pstep pfinish w ev) as [[w1 []]|]; [| |discriminate]; injection E as <-; auto.
        - destruct (existsb (Nat.eqb i) (s_cbs s) && task_done w i); [|discriminate].
          assert (Q : NoDup (remove Nat.eq_dec i (s_cbs s)) /\ (forall k, In k (remove Nat.eq_dec i (s_cbs s)) -> In k [0; 1])).
          { split; [|intros k K; apply in_remove in K; now apply P2].
            clear - P1. induction P1 as [|a l NI P1 IH]; cbn; [constructor|]. destruct (Nat.eq_dec i a); [exact IH|]. constructor; [|exact IH]. intros K. apply in_remove in K. tauto. }
          destruct Q as [Q1 Q2]. destruct (remove Nat.eq_dec i (s_cbs s)) as [|a l] eqn:RM; cbn in E; injection E as <-; cbn; auto. split; [exact Q1|]. split; [exact Q2|discriminate].
        - destruct (s_armed s && negb (s_fired s) && negb (s_canc s)); [|discriminate]. injection E as <-. cbn. auto. }
      apply (G evs _) with (c' := (w, s)) in H; [exact H|]. cbn. split; [repeat constructor; cbn; intuition discriminate|]. split; [auto|discriminate]. }
    destruct S as (ND & SUB & FI).
    assert (F : exists evs2 s', wait_run pstep pfinish ALL_COMPLETED None (w, s) evs2 = Some (w, s') /\ s_fired s' = true /\ s_canc s' = false).
    { destruct (s_cbs s) as [|i l] eqn:CB.
      - exists [], s. split; [reflexivity|]. auto.
      - destruct (wait_progress pstep pfinish ALL_COMPLETED w (i :: l) s CB ND ltac:(discriminate)) as (evs2 & w2 & s2 & A & B & K & ->).
        { intros k Hk. destruct (SUB k Hk) as [<-|[<-|[]]]; assumption. }
        exists evs2, s2. split; [exact A|]. split; [exact B|].
        clear - A C K. revert s s2 A C. induction K as [|e evs (i & ->) K IH]; intros s s2 A C; cbn in A; [injection A as <-; exact C|].
        destruct (existsb (Nat.eqb i) (s_cbs s) && task_done w i); [|discriminate]. destruct (_ || false) in A; refine (IH _ _ A _); exact C. }
    destruct F as (evs2 & s' & R & FI' & C'). eexists. exists (evs ++ evs2), s'. split; [exact (eq_trans (wait_run_app _ _ _ evs2 _ _ H) R)|]. right. split; [exact C'|]. split; [exact FI'|reflexivity]. }
  destruct W as (dp & W). exists (mk_world (w_tasks w) (set_ready (w_x w)) (w_hist w)). split; [|split; reflexivity].
  apply b_try. apply b_try. eapply b_bind; [split; reflexivity|]. eapply b_bind; [|split; reflexivity].
  unfold setup_capturing. eapply b_bind; [split; reflexivity|]. eapply b_bind; [split; reflexivity|].
  eapply b_bind; [apply add_one|]. eapply b_bind; [apply for_adds|]. eapply b_bind; [apply add_one|]. cbn [w_tasks w_x w_hist app pw0 List.length].
  eapply b_bind; [|split; reflexivity]. 
  match goal with |- PipeRunnerModel.await_wait ?fs _ _ ?u _ _ => assert (U : u = begun n true) end.
  { unfold begun, first_table. rewrite (seq_split n N) at 1. cbn [app map off]. rewrite map_app. cbn [map]. rewrite map_length, !seq_length.
    destruct n as [|[|m]]; try lia. replace (S (S m) - 2) with m by lia. change (seq 2 (S (S m))) with (2 :: seq 3 (S m)). rewrite (seq_S m 3). reflexivity. }
  rewrite U. exact W.
Qed.
Lemma run_pipeline_parts n o res w' : n >= 2 -> run_pipeline n (Ok tt) o pw0 res w' ->
  exists w0 ra, aenter n (Ok tt) false pw0 (Ok tt) w0 /\ aexit None w0 ra w'.
Proof.
  intros N H. unfold run_pipeline in H. apply b_inv in H as [([] & w1 & H & K)|(e & H & ->)].
  - assert (W : w' = w1).
    { unfold presult in K. apply b_inv in K as [(a & u & [_ ->] & K)|(e & [Q _] & _)]; [|discriminate]. destruct a as [l|]; [|now destruct K].
      apply b_inv in K as [(c & u & [_ ->] & K)|(e & [Q2 _] & _)]; [|discriminate]. destruct (pipe_run_result _ _ _); destruct K; assumption. }
    subst w1. apply b_inv in H as [([] & w0 & H & rb & wb & [-> ->] & X)|(e & H & Q)]; [|discriminate].
    apply b_inv in X as [(b & w2 & X & [_ ->])|(e & X & Q)]; [|discriminate]. eauto.
  - apply b_inv in H as [([] & w0 & H & rb & wb & [-> ->] & X)|(e' & H & Q)].
    + apply b_inv in X as [(b & w2 & X & [Q _])|(e' & X & Q)]; [discriminate|]. eauto.
    + destruct (aenter_err _ _ _ _ N H) as (Q' & _). discriminate.
Qed.
