From Verif Require Import AsyncModel AsyncSpec AsyncProofs HarvestModel HarvestSpec HarvestProofs HarvestProofs2 AsyncInv
  PipeRunnerModel PipeRunnerProofs PipeRunnerProofs2.
Open Scope nat_scope.

(** Why the commands of a pipeline are cancelled. *)
Definition first_to_fail (ts : list nat) (h1 h2 : list (hev pval)) (w1 : world) : Prop :=
  forall i, In (HReq i) h2 -> task_done w1 i = false /\ (In HCancel h1 \/ exists j, In j ts /\ out_failed (task_out w1 j) = true).

Lemma wait_detail w w' : wait false w (Ok tt) w' -> p_results (w_x w) = None -> p_tasks (w_x w) <> [] ->
  exists h1 h2 w1, extends w h1 w1 /\ extends w1 h2 w' /\ no_req h1 /\ first_to_fail (p_tasks (w_x w)) h1 h2 w1
  /\ (In HCancel h1 -> p_cancelled (w_x w') = true).
Proof.
  intros H RN TN. unfold wait in H. apply b_inv in H as [([] & w1 & H1 & H)|(e & _ & Q)]; [|discriminate].
  apply b_inv in H1 as [(a & w2 & [Q ->] & H1)|(e' & [Q _] & _)]; [|discriminate]. injection Q as ->. rewrite RN in H1. destruct H1 as [_ ->].
  apply b_inv in H as [(ts & w2 & [Q ->] & H)|(e' & [Q _] & _)]; [|discriminate]. injection Q as ->. set (ts := p_tasks (w_x w)) in *.
  apply b_inv in H as [([] & w1 & [_ ->] & H)|(e & _ & Q)]; [|discriminate].
  apply b_inv in H as [([c os] & w2 & H2 & H)|(e & _ & Q)]; [|discriminate].
  pose proof (map_ne (AwTask (K := pkind)) ts TN) as NE'.
  destruct (harvest_results_facts _ _ _ _ _ _ _ H2 NE') as (w0 & rw & h1 & h2 & w1 & E0 & O & F & R).
  rewrite managed_tasks in F, R.
  assert (CC : In HCancel h1 -> c = true).
  { intros IC. destruct (hf_canc_first _ _ _ _ _ _ _ _ _ F IC) as [-> | ->]; [|discriminate R].
    destruct R as [(os' & Q & _)|[(e & i & o & Q & _)|(Q & _)]]; try discriminate. congruence. }
  exists h1, h2, w1. split; [exact (extends_trans _ _ _ _ _ E0 (hf_e1 _ _ _ _ _ _ _ _ _ F))|].
  assert (E2 := hf_e2 _ _ _ _ _ _ _ _ _ F).
  assert (W : exists x, w' = mk_world (w_tasks w2) x (w_hist w2) /\ (c = true -> p_cancelled x = true)).
  { apply b_inv in H as [([] & w3 & [_ ->] & H)|(e & _ & Q)]; [|discriminate].
    apply b_inv in H as [([] & w3 & H1 & [_ ->])|(e & _ & Q)]; [|discriminate]. destruct c; cbn [fst when] in H1; destruct H1 as [_ ->]; (eexists; split; [reflexivity|]); [reflexivity|discriminate]. }
  destruct W as (x & -> & PC). split; [exact (ext_x _ _ _ _ E2)|]. split; [exact (hf_nr _ _ _ _ _ _ _ _ _ F)|]. split; [|auto].
  intros i Hi. destruct (hf_why _ _ _ _ _ _ _ _ _ F i Hi) as (_ & D & [Q|[Q|Q]]); [auto| |auto]. apply (hf_tm _ _ _ _ _ _ _ _ _ F) in Q. discriminate.
Qed.

(** If the value of the pipeline is a result, a command was asked to stop only
    after another one had failed by itself. *)
Lemma pipeline_requests n o res w' : n >= 2 -> run_pipeline n (Ok tt) o pw0 (Ok res) w' ->
  forall i t, i < n -> nth_error (w_tasks w') i = Some t -> t_creq t <> 0 ->
  exists j tj e, j < n /\ nth_error (w_tasks w') j = Some tj /\ t_out tj = Some (TFail e) /\ t_creq tj = 0.
Proof.
  intros N H. unfold run_pipeline in H. apply b_inv in H as [([] & w1 & H & K)|(e & _ & Q)]; [|discriminate].
  assert (W : w' = w1 /\ p_cancelled (w_x w1) = false).
  { unfold presult in K. apply b_inv in K as [(a & u & [Q ->] & K)|(e & [Q _] & _)]; [|discriminate]. destruct a as [l|]; [|destruct K; discriminate].
    apply b_inv in K as [(c & u & [Qc ->] & K)|(e & [Q2 _] & _)]; [|discriminate]. injection Qc as ->. unfold pipe_run_result in K.
    destruct (convert_result_list _ _) as [rr|e]; [|destruct K; discriminate]. unfold check_result in K.
    destruct (p_cancelled (w_x w1)); [|destruct (_ || _) in K; destruct K as [Q2 ->]; auto].
    cbn in K. destruct (o_catch_cancelled o); cbn in K; destruct K; discriminate. }
  destruct W as [-> PC]. clear K.
  apply b_inv in H as [([] & w0 & H & rb & w2 & [-> ->] & K)|(e & H & Q)]; [|discriminate].
  destruct (start_spec n false (Ok tt) w0 N) as [(_ & _ & W0)|(Q & _)]; [|subst w0|discriminate].
  { destruct H as [([] & H & Q)|(e & w3 & H & _)]; [exact H|]. apply (start_spec n false _ _ N) in H as [(_ & Q & _)|(Q & _)]; discriminate. }
  set (w0 := mk_world (first_table n false) (set_ready (set_tasks (seq 0 n) px0)) []) in *.
  apply b_inv in K as [(b & w2 & K & [_ ->])|(e & _ & Q)]; [|discriminate].
  assert (WT : wait false w0 (Ok tt) w2).
  { destruct K as [(u & K & Q)|(e & w3 & K & KH)].
    - cbn [finish] in K. apply b_inv in K as [([] & w4 & K & [_ ->])|(e & _ & Q2)]; [exact K|discriminate].
    - exfalso. cbn [finish] in K. apply b_inv in K as [([] & w4 & K & [Q _])|(e1 & K & [= <-])]; [discriminate|].
      destruct (is_cancelled e) eqn:IC; [|destruct KH; discriminate]. destruct e; try discriminate. apply wait_not_cancelled in K; [exact K|reflexivity|now apply seq_ne]. }
  destruct (wait_detail _ _ WT eq_refl (seq_ne 0 n N)) as (h1 & h2 & w1 & E1 & E2 & NR & FF & CN). cbn in FF.
  intros i t Li Nt CR.
  assert (BT : forall k, k < n -> nth_error (w_tasks w0) k = Some (cmd_task k)).
  { intros k L. cbn. apply map_nth_error. rewrite nth_error_nth' with (d := 0) by (now rewrite seq_length). now rewrite seq_nth. }
  assert (R1 : forall k, reqs k h1 = 0).
  { intros k. destruct (reqs k h1) eqn:Q; [reflexivity|]. assert (I0 : In (HReq k) h1) by (apply reqs_In; lia). destruct (NR _ I0). }
  assert (T1 : forall k, k < n -> exists tk, nth_error (w_tasks w1) k = Some tk /\ t_creq tk = 0).
  { intros k L. destruct (proj1 (proj2 E1) _ _ (BT k L)) as (tk & Nk & _ & _ & Ck). exists tk. split; [exact Nk|]. rewrite Ck, R1. reflexivity. }
  destruct (T1 i Li) as (ti & Ni & Ci). destruct (proj1 (proj2 E2) _ _ Ni) as (t2 & N2 & _ & _ & C2). rewrite Nt in N2. injection N2 as <-.
  assert (IR : In (HReq i) h2) by (apply reqs_In; lia). destruct (FF i IR) as (_ & [IC|(j & Hj & OF)]); [rewrite (CN IC) in PC; discriminate|].
  apply in_seq in Hj. destruct (T1 j) as (tj & Nj & Cj); [lia|]. destruct (proj1 (proj2 E2) _ _ Nj) as (t3 & N3 & _ & O3 & C3).
  assert (OJ : task_out w1 j = t_out tj) by (unfold task_out; now rewrite Nj). rewrite OJ in OF. destruct (t_out tj) as [[v|e|]|] eqn:Oj; try discriminate.
  exists j, t3, e. split; [lia|]. split; [exact N3|]. split; [exact O3|]. rewrite C3, Cj. destruct (reqs j h2) eqn:Q; [reflexivity|].
  assert (I0 : In (HReq j) h2) by (apply reqs_In; lia). destruct (FF j I0) as (D & _). unfold task_done in D. rewrite OJ in D. discriminate.
Qed.
