(** Theorems about `await cmd` from the options to the value (C83): they hold
    for every command, every answer of the operating system, every arrival of
    the data and every schedule of exits, timeouts, signals and cancellations. *)
From Verif Require Import AsyncModel AsyncSpec AsyncProofs HarvestModel HarvestSpec HarvestProofs HarvestProofs2 AsyncInv
  RunnerModel RunnerSpec RunnerProofs RunnerProofs2 RunnerProofs3 RunnerProofs4 RunnerProofs5 RunnerProofs6 RunnerProofs7
  RunnerProofs8 RunnerProofs9 RunnerProofs10 RunnerProofs11 CopySpec CopyProofs CopyProofs2 Utf8Model AwaitModel AwaitProofs.
From Verif Require RunOptionsModel RouteSpec RouteProofs RouteProps.
From Verif Require Import RunTac RunnerProps.
Open Scope Z_scope.

(** ** Specification *)
(** What a sink holds when all of [data] has been copied into it. *)
Definition holds (dec : text -> bytes -> option text) (o : opts) (append : bool) (dst : RunOptionsModel.sink) (lim : option Z) (data : bytes) (c : list Z) : Prop :=
  match dst with
  | ResultOut => c = data
  | ResultErr => c = match lim with Some l => firstn (Z.to_nat l) data | None => data end
  | Sink (VByteArray _ old) | Sink (VBytesIO _ old) => c = (if append then old else []) ++ data
  | Sink (VStringIO _ old) => exists t, dec (o_encoding o) data = Some t /\ c = (if append then old else []) ++ t
  | Sink (VLogger _) => (* one message for each line, without the white space at its end; no line exceeds 64 KiB *)
      Forall (fun l => too_long l = false) (split_lines data)
      /\ exists ts, Forall2 (fun line t => dec (o_encoding o) line = Some t) (split_lines data) ts
      /\ c = messages (map (rstrip py_isspace) ts)
  | Sink (VStreamWriter _) => c = data ++ [-1]   (* everything is written, then it is closed *)
  | _ => False
  end.
(** The stream from which shellous reads what the child writes to this handle. *)
Definition connected (s : RunOptionsModel.rst) (own : RunOptionsModel.stream) (h : RunOptionsModel.handle) (src : RunOptionsModel.stream) : Prop :=
  (h = RunOptionsModel.HInt (-1) /\ src = own)
  \/ (exists p child, RunOptionsModel.s_pty s = Some (p, child) /\ h = RunOptionsModel.HInt child /\ src = RunOptionsModel.PtyReader).
(** Tasks end as cancelled only after shellous has requested it. *)
Definition only_shellous_cancels (w : world rx rkind unit) : Prop :=
  forall i t, nth_error (w_tasks w) i = Some t -> t_out t = Some TCancelled -> t_creq t <> 0%nat.
(** The run was not cancelled and did not time out (the caller sees this). *)
Definition not_cancelled (o : opts) (a : awaited) : Prop :=
  o_catch_cancelled o = false \/ exists r, a = AResult r /\ r_cancelled r = false.

(** ** Proofs *)
Lemma logged_ok sp dec ds : forall e l, copy_logger sp dec ds e = (l, None) -> e = None /\ exists ts, Forall2 (fun d t => dec d = Some t) ds ts /\ l = map (rstrip sp) ts.
Proof.
  induction ds as [|d ds IH]; cbn; intros e l H; [injection H as <- ->; split; [reflexivity|]; exists []; auto|]. destruct (dec d) as [t|] eqn:D; [|discriminate].
  destruct (copy_logger sp dec ds e) as [l' x] eqn:C. injection H as <- ->. destruct (IH _ _ C) as (-> & ts & F & ->). split; [reflexivity|]. exists (t :: ts). auto.
Qed.
Lemma written_ok dr closed ds : forall k e l, copy_streamwriter dr closed k ds e = (l, None) -> e = None /\ writer_log l = List.concat ds ++ [-1].
Proof.
  induction ds as [|d ds IH]; cbn; intros k e l H; [destruct e; [discriminate|injection H as <- _; auto]|]. destruct (dr k); [discriminate|].
  destruct (copy_streamwriter dr closed (S k) ds e) as [l' x] eqn:C. injection H as <- ->. destruct (IH _ _ _ C) as (-> & E). split; [reflexivity|]. cbn. now rewrite E, app_assoc.
Qed.
Lemma line_success r ds : line_reads r ds None -> sr_end r = EndEof /\ lines_short (sr_data r) /\ ds = split_lines (sr_data r).
Proof.
  intros H. destruct (line_reads_spec _ _ _ H) as (_ & E & S & _). specialize (E eq_refl). destruct (S E) as (D & [(_ & F)|(m & Q & _)]); [|discriminate].
  split; [exact E|]. split; [now apply short_all|]. rewrite D. now apply take_while_all.
Qed.
Lemma copies_complete dec o app sr dst lim ds e c : answers (reads_by dst) sr ds e -> copies dec o app dst lim ds e c None ->
  sr_end sr = EndEof /\ holds dec o app dst lim (sr_data sr) c.
Proof.
  intros A C. destruct (match dst with Sink (VLogger _) => true | _ => false end) eqn:LG.
  { destruct dst as [| |[]]; try discriminate. inversion C as [| | | | | |? ? ? ? ? Q|]; subst. destruct (logged_ok _ _ _ _ _ Q) as (-> & ts & M & ->).
    destruct (line_success _ _ A) as (E & SH & ->). split; [exact E|]. unfold holds. split; [exact SH|]. exists ts. split; [exact M|reflexivity]. }
  assert (A' : chunk_reads sr ds e) by (destruct dst as [| |[]]; try discriminate LG; exact A). clear A. rename A' into A.
  assert (EE : end_exn (sr_end sr) = None -> sr_end sr = EndEof) by (destruct (sr_end sr); cbn; congruence).
  inversion C as [? ? ? ? Q|? ? ? ? Q|? ? ? ? ? n Q|id old ? ? ? ? Q|id old p ? ? m ? Q|id old p ? ? m ? Q|id ? ? ? ? Q|id dr closed ? ? ? ? Q]; subst.
  - destruct (copy_bytes_exact sr ds e false [] {| m_data := []; m_pos := 0 |} A) as (got & rest & D & F & G & _).
    cbn in G. rewrite Q in G. injection G as -> G. symmetry in G. apply EE in G. split; [exact G|]. rewrite (F (or_introl G)), app_nil_r in D. now symmetry.
  - destruct (copy_bytes_exact sr ds e false [] {| m_data := []; m_pos := 0 |} A) as (got & rest & D & F & G & _).
    cbn in G. rewrite Q in G. injection G as -> G. symmetry in G. apply EE in G. split; [exact G|]. rewrite (F (or_introl G)), app_nil_r in D. now symmetry.
  - assert (L : 0 <= l). { unfold copy_bytearray_limit in Q. destruct (Z.ltb_spec l 0); [discriminate|lia]. }
    destruct (copy_limit_exact sr ds e l A L) as (got & rest & D & F & G).
    rewrite Q in G. injection G as -> G _. symmetry in G. apply EE in G. split; [exact G|]. rewrite (F (or_introl G)), app_nil_r in D. now rewrite D.
  - destruct (copy_bytes_exact sr ds e app old {| m_data := []; m_pos := 0 |} A) as (got & rest & D & F & G & _).
    rewrite Q in G. injection G as -> G. symmetry in G. apply EE in G. split; [exact G|]. rewrite (F (or_introl G)), app_nil_r in D. now rewrite D.
  - destruct (copy_bytes_exact sr ds e app [] {| m_data := old; m_pos := p |} A) as (got & rest & D & F & _ & G & H).
    rewrite Q in G, H. cbn in G, H. symmetry in H. apply EE in H. split; [exact H|]. rewrite (F (or_introl H)), app_nil_r in D. now rewrite D.
  - destruct (copy_text_exact (dec (o_encoding o)) sr ds e app {| m_data := old; m_pos := p |} A) as (got & rest & D & F & G & H).
    destruct (dec (o_encoding o) got) as [t|] eqn:T; [|specialize (H eq_refl); rewrite Q in H; discriminate].
    destruct (G t eq_refl) as [G1 G2]. rewrite Q in G1, G2. cbn in G1, G2. symmetry in G2. apply EE in G2. split; [exact G2|].
    rewrite (F (or_introl G2)), app_nil_r in D. rewrite <- D in T. exists t. split; [exact T|exact G1].
  - discriminate LG.
  - destruct (written_ok _ _ _ _ _ _ Q) as (-> & ->). destruct (chunk_reads_spec _ _ _ A) as ((got & D & F) & G & _).
    symmetry in G. apply EE in G. split; [exact G|]. cbn. now rewrite D, (F (or_introl G)), app_nil_r.
Qed.

Lemma value_cancelled dec o r a ob eb enc x t : await_value dec o r = Ok a -> not_cancelled o a -> forall c, r = runner_result c ob eb enc o x t true ->
  exists v, r = Ok v /\ r_cancelled v = false.
Proof.
  intros E NC c R. destruct r as [v|e]; [|discriminate]. exists v. split; [reflexivity|]. destruct NC as [CC|(r' & -> & Q)].
  - unfold runner_result in R. destruct c as [z|]; [|discriminate]. unfold check_result in R. rewrite CC in R. destruct x; [discriminate|]. cbn in R.
    destruct (negb _); [discriminate|]. now injection R as ->.
  - cbn in E. destruct (o_return_result o); [injection E as <-; exact Q|]. destruct (result_output dec v); discriminate.
Qed.

(** ** C83 *)
(** If `await cmd` returns a value, every stream that shellous copies was read to
    its end and every sink holds all of it: a Logger has received every line, a
    StreamWriter every byte, and is closed. *)
Theorem c83_sinks_complete : forall dec R c next rd sinks a w',
  await_command dec R c next rd sinks (Ok a) w' -> not_cancelled (c_opts c) a -> only_shellous_cancels w' ->
  exists s hs wi, RunOptionsModel.start R c next = (s, Ok (hs, wi))
  /\ forall src dst lim, In (TCopy src dst lim) (RunOptionsModel.wi_tasks wi) ->
     sr_end (rd src) = EndEof /\ holds dec (c_opts c) (match src with RunOptionsModel.PStderr => o_error_append (c_opts c) | _ => o_output_append (c_opts c) end) dst lim (sr_data (rd src)) (sinks dst).
Proof.
  intros dec R c next rd sinks a w' H NC OS. remember (Ok a) as ra eqn:ER. revert ER.
  destruct H as [sinks e G|sinks pty e w' G H|sinks s hin hout herr wi w0 r w' o ob eb G ST HE HL CP]; intros ER; [discriminate|discriminate|].
  exists s, (hin, hout, herr), wi. split; [exact ST|]. intros src dst lim Hin.
  assert (V : exists v, r = Ok v /\ r_cancelled v = false).
  { destruct HL as [(b & wx & HX & HR)|(e & _ & Q)]; [|subst r; discriminate]. apply i_getx in HR.
    eapply value_cancelled with (c := returncode (w_x wx)) (ob := ob) (eb := eb) (enc := o_encoding o); [exact ER|exact NC|]. destruct (runner_result _ _ _ _ _ _ _ _) eqn:Q; destruct HR as [-> ->]; eauto. }
  destruct V as (v & -> & VC).
  destruct (run_completes _ _ _ _ _ _ _ _ _ HE HL VC OS) as [DONE _].
  destruct (CP src dst lim Hin) as (i & ds & e & x & Hi & A & C & E). destruct (DONE i Hi) as (u & U). rewrite U in E. cbn in E. subst x.
  eapply copies_complete; eauto.
Qed.
Print Assumptions c83_sinks_complete.

(** Facts about the wiring. *)
Lemma reader_task wi src d : RouteSpec.reader wi src = d -> d <> RouteSpec.Unread -> d <> RouteSpec.Contended -> (forall x, d <> RouteSpec.ToCaller x) ->
  exists dst lim, In (TCopy src dst lim) (RunOptionsModel.wi_tasks wi)
  /\ d = match dst with ResultOut => RouteSpec.ToResultOutput | ResultErr => RouteSpec.ToResultError lim | Sink v => RouteSpec.ToObject v end.
Proof.
  unfold RouteSpec.reader. destruct (RouteSpec.readers wi src) as [|d1 [|d2 l]] eqn:E; [congruence| |congruence]. intros <- _ _ NC.
  assert (I1 : In d1 (RouteSpec.readers wi src)) by (rewrite E; now left). unfold RouteSpec.readers in I1.
  apply in_app_iff in I1 as [I1|I1].
  - apply in_flat_map in I1 as (t & It & I1). destruct t as [s' dst lim| |]; try destruct I1. destruct (RouteSpec.stream_eqb s' src) eqn:Q; [|destruct I1].
    assert (s' = src) by (destruct s', src; discriminate || reflexivity). subst s'. destruct I1 as [<-|[]]. eauto.
  - exfalso. apply in_app_iff in I1 as [I1|I1]; destruct (RouteSpec.is_stream _ _); try destruct I1 as [<-|[]]; try destruct I1; eapply NC; reflexivity.
Qed.
Lemma handle_reader wi s own d0 h d : RouteSpec.handle_dest wi (RunOptionsModel.s_pty s) own d0 h = d -> RouteSpec.read_by_shellous d = true ->
  d0 <> d -> exists src, connected s own h src /\ RouteSpec.reader wi src = d.
Proof.
  unfold RouteSpec.handle_dest. intros H RS N. destruct h as [z|z|p [app|] q|f]; [| | | |]; try (subst d; discriminate).
  destruct (Z.eqb_spec z (-1)) as [->|N1]; [exists own; split; [left; auto|exact H]|].
  destruct (z =? -2); [congruence|]. destruct (z =? -3); [subst d; discriminate|].
  destruct (RunOptionsModel.s_pty s) as [[p ch]|] eqn:P; [|subst d; discriminate].
  destruct (Z.eqb_spec z ch) as [->|N2]; [|subst d; discriminate]. exists RunOptionsModel.PtyReader. split; [right; eauto|exact H].
Qed.
Lemma start_wire R c next s hs wi : RunOptionsModel.start R c next = (s, Ok (hs, wi)) -> RunOptionsModel.wire R c s hs = Ok wi.
Proof.
  unfold RunOptionsModel.start. destruct (RunOptionsModel.enter _ _ _) as [s0 [[x hs0]|e]]; [|discriminate].
  destruct (RunOptionsModel.wire R c (RunOptionsModel.exit_ false s0) hs0) as [wi0|e] eqn:W; cbn; [|discriminate]. now intros [= <- <- <-].
Qed.
Lemma sink_tasks src v t : In t (fst (RunOptionsModel.output_sink src v)) -> exists w, t = TCopy src (Sink w) None.
Proof. destruct v; cbn; try tauto; intros [<-|[]]; eauto. Qed.
Lemma wire_buffers R c s hs wi : RunOptionsModel.wire R c s hs = Ok wi -> forall src dst lim, In (TCopy src dst lim) (RunOptionsModel.wi_tasks wi) ->
  (dst = ResultOut -> RunOptionsModel.s_output_bytes s = true /\ lim = None) /\ (dst = ResultErr -> RunOptionsModel.s_error_bytes s = true).
Proof.
  destruct hs as [[hin hout] herr]. unfold RunOptionsModel.wire.
  destruct (match RunOptionsModel.s_pty s with None => _ | Some _ => _ end) as [[pin pout]|e]; [|discriminate]. cbn [bind].
  set (er := match RunOptionsModel.pipe_stream herr RunOptionsModel.PStderr with None => _ | Some _ => _ end).
  set (ou := match pout with None => ([], None) | Some _ => _ end).
  assert (EQ : forall v, er = Ok v -> forall src dst lim, In (TCopy src dst lim) (fst v) ->
    (dst = ResultOut -> RunOptionsModel.s_output_bytes s = true /\ lim = None) /\ (dst = ResultErr -> RunOptionsModel.s_error_bytes s = true)).
  { intros v. subst er. destruct (RunOptionsModel.pipe_stream _ _) as [e0|]; [|intros [= <-]; intros ? ? ? []].
    destruct (RunOptionsModel.s_error_bytes s) eqn:EB.
    - intros [= <-] src dst lim [[= <- <- <-]|[]]. split; [discriminate|auto].
    - destruct (RunOptionsModel.s_stderr_only s).
      + destruct pout; [discriminate|]. destruct (RunOptionsModel.s_output_bytes s); [|discriminate]. intros [= <-] src dst lim [[= <- <- <-]|[]]. split; [auto|discriminate].
      + intros [= <-] src dst lim Hin. apply sink_tasks in Hin as (w & [= -> -> ->]). split; discriminate. }
  assert (OQ : forall src dst lim, In (TCopy src dst lim) (fst ou) ->
    (dst = ResultOut -> RunOptionsModel.s_output_bytes s = true /\ lim = None) /\ (dst = ResultErr -> RunOptionsModel.s_error_bytes s = true)).
  { subst ou. intros src dst lim. destruct pout as [p|]; [|intros []]. destruct (RunOptionsModel.s_output_bytes s).
    - intros [[= <- <- <-]|[]]. split; [auto|discriminate].
    - intros Hin. apply sink_tasks in Hin as (w & [= -> -> ->]). split; discriminate. }
  destruct er as [er'|e]; [|discriminate]. cbn [bind].
  destruct (match pin with None => _ | Some _ => _ end) as [inp|e] eqn:IN; [|discriminate]. cbn [bind].
  intros [= <-] src dst lim Hin. cbn in Hin. apply in_app_iff in Hin as [Hin|Hin]; [eapply EQ; eauto|]. apply in_app_iff in Hin as [Hin|Hin]; [eapply OQ; eauto|].
  exfalso. destruct pin as [p|]; [|injection IN as <-; exact Hin]. unfold RunOptionsModel.input_source in IN.
  repeat match type of IN with match ?x with _ => _ end = _ => destruct x end; try discriminate; injection IN as <-; cbn in Hin; intuition discriminate.
Qed.

(** The value.  With the default redirections (or BUFFER), `await cmd` gives
    everything the child wrote to its standard output, as a Result or as text,
    and the beginning of everything it wrote to standard error; the exit status
    is one of the accepted ones. *)
Theorem c83_value : forall dec R c next rd sinks a w',
  let o := c_opts c in
  RunOptionsModel.w_same_std R = false -> RouteSpec.api_options o -> RouteSpec.old_fds next o ->
  o_output o = VRedirect DEFAULT \/ o_output o = VRedirect BUFFER ->
  await_command dec R c next rd sinks (Ok a) w' -> not_cancelled o a -> only_shellous_cancels w' ->
  exists s hin hout herr wi out, RunOptionsModel.start R c next = (s, Ok ((hin, hout, herr), wi))
  /\ connected s RunOptionsModel.PStdout hout out /\ sr_end (rd out) = EndEof
  /\ match a with
     | AText t => o_return_result o = false /\ dec (o_encoding o) (sr_data (rd out)) = Some t
     | AResult r => o_return_result o = true /\ r_output r = sr_data (rd out) /\ r_encoding r = o_encoding o
         /\ (match o_exit_codes o with
             | Some (CSet (z :: l)) => In (r_exit r) (z :: l)
             | Some (CRange lo hi) => if lo <? hi then lo <= r_exit r < hi else r_exit r = 0
             | _ => r_exit r = 0
             end)
         /\ ((o_error o = VRedirect DEFAULT /\ o_pty o = PtyOff) \/ o_error o = VRedirect BUFFER ->
             exists err, connected s RunOptionsModel.PStderr herr err /\ sr_end (rd err) = EndEof
             /\ r_error r = match o_error_limit o with Some l => firstn (Z.to_nat l) (sr_data (rd err)) | None => sr_data (rd err) end)
     end.
Proof.
  intros dec R c next rd sinks a w' o SS AO OF OUT H NC OS.
  destruct (c83_sinks_complete _ _ _ _ _ _ _ _ H NC OS) as (s & [[hin hout] herr] & wi & ST & CPL).
  assert (NO : RouteSpec.observed_out s (hin, hout, herr) wi = RouteSpec.ToResultOutput).
  { rewrite (RouteProofs.observed_out_named _ _ _ _ _ _ SS AO OF ST). unfold RouteSpec.named_out. fold o. destruct OUT as [-> | ->]; reflexivity. }
  destruct (handle_reader _ _ _ _ _ _ NO) as (out & CO & RO); [reflexivity|discriminate|].
  destruct (reader_task _ _ _ RO) as (dst & lim & TK & D); try discriminate. destruct dst; try discriminate.
  pose proof (start_wire _ _ _ _ _ _ ST) as WI. destruct (proj1 (wire_buffers _ _ _ _ _ WI _ _ _ TK) eq_refl) as [OB ->].
  destruct (CPL _ _ _ TK) as [EO HO]. cbn in HO.
  exists s, hin, hout, herr, wi, out. split; [exact ST|]. split; [exact CO|]. split; [exact EO|].
  remember (Ok a) as ra eqn:ER. revert ER.
  destruct H as [sinks e G|sinks pty e w' G H|sinks s1 hin1 hout1 herr1 wi1 w0 r w' o1 ob eb G ST1 HE HL CP]; intros ER; [discriminate|discriminate|].
  rewrite ST in ST1. injection ST1 as <- <- <- <- <-. change o1 with o in *. clear o1.
  assert (V : exists v, r = Ok v /\ r_cancelled v = false).
  { destruct HL as [(b & wx & HX & HR)|(e & _ & Q)]; [|subst r; discriminate]. apply i_getx in HR.
    eapply value_cancelled with (c := returncode (w_x wx)) (ob := ob) (eb := eb) (enc := o_encoding o); [exact ER|exact NC|]. destruct (runner_result _ _ _ _ _ _ _ _) eqn:Q; destruct HR as [-> ->]; eauto. }
  destruct V as (v & -> & VC).
  destruct (run_completes _ _ _ _ _ _ _ _ _ HE HL VC OS) as [_ RR].
  unfold runner_result in RR. destruct (returncode (w_x w')) as [z|]; [|discriminate]. unfold check_result in RR. cbn [andb orb] in RR.
  set (codes := match o_exit_codes o with Some c0 => if container_truth c0 then c0 else CSet [0] | None => CSet [0] end) in *.
  destruct (container_in _ codes) eqn:CI; [|discriminate]. injection RR as <-. cbn in CI. cbn in ER. subst ob eb. rewrite OB, HO in ER. cbn in ER.
  destruct (o_return_result o).
  - injection ER as <-. cbn. split; [reflexivity|]. split; [reflexivity|]. split; [reflexivity|]. split.
    + subst codes. destruct (o_exit_codes o) as [[[|z0 l0]|lo hi]|]; cbn in CI.
      * now rewrite orb_false_r, Z.eqb_eq in CI.
      * apply orb_true_iff in CI as [CI|CI]; [apply Z.eqb_eq in CI; now left|]. right. apply existsb_exists in CI as (y & Hy & Q). apply Z.eqb_eq in Q. now subst y.
      * destruct (Z.ltb_spec lo hi); cbn in CI; [lia|]. now rewrite orb_false_r, Z.eqb_eq in CI.
      * now rewrite orb_false_r, Z.eqb_eq in CI.
    + intros ERR.
      assert (NE : RouteSpec.observed_err s (hin, hout, herr) wi = RouteSpec.ToResultError (o_error_limit o)).
      { rewrite (RouteProofs.observed_err_named R c next s _ wi SS AO OF); [| |exact ST].
        - fold o. unfold RouteSpec.named_err, RouteSpec.follows_stdout, RouteSpec.named. destruct ERR as [(-> & ->)| ->]; reflexivity.
        - fold o. destruct ERR as [(_ & ->)|E]; [now left|]. right; left. unfold RouteSpec.follows_stdout. rewrite E. reflexivity. }
      destruct (handle_reader _ _ _ _ _ _ NE) as (err & CE & RE); [reflexivity|rewrite NO; discriminate|].
      destruct (reader_task _ _ _ RE) as (dst & lim & TE & DE); try discriminate. destruct dst; try discriminate. injection DE as <-.
      destruct (CPL _ _ _ TE) as [EE HErr]. exists err. split; [exact CE|]. split; [exact EE|].
      rewrite (proj2 (wire_buffers _ _ _ _ _ WI _ _ _ TE) eq_refl). exact HErr.
  - unfold result_output in ER. cbn in ER. destruct (dec _ _); [injection ER as <-; split; reflexivity|discriminate].
Qed.
Print Assumptions c83_value.

(** ** Concrete runs *)
(** `await cmd` with the default options; the child writes "hi" and then "é" in
    two pieces to its standard output and "x" to standard error.  Task 1 copies
    standard error, task 2 standard output, task 3 closes standard input. *)
Definition ex83_cmd : command := RouteProps.ex_cmd RouteProps.dflt RouteProps.dflt RouteProps.dflt PtyOff.
Definition ex83_sinks (out : bytes) (s : RunOptionsModel.sink) : list Z :=
  match s with ResultOut => out | ResultErr => [120] | _ => [] end.
Definition launched3 : world rx rkind unit :=
  mk_world [mk_task KExec (Some (TValue tt)) 0; mk_task KIO None 0; mk_task KIO None 0; mk_task KIO None 0; mk_task KWaiter None 0]
    (mk_rx [LSpawn] false false true true None false None None false false false None [1%nat; 2%nat; 3%nat; 4%nat] true)
    [HDone 0 (TValue tt)].
Lemma ex_launched3 ob eb enc : aenter (c_opts ex83_cmd) false false ob eb enc fresh (Ok tt) launched3.
Proof.
  all: go. 1: apply setup_ok. all: go.  1: wait_by (@nil (@wev unit rxe)). all: go. 1: wait_by [ev XSpawn; fin 0 (TValue tt); cb 0].
  all: go. 1: exists 3%nat. all: go. 1: apply setup_ok. all: go.
Qed.
Definition end3 (o2 : tout unit) : list (@wev unit rxe) :=
  [fin 3 (TValue tt); fin 1 (TValue tt); fin 2 o2; ev (XExit 0); ev XWatch; ev XCollect; fin 4 (TValue tt); cb 3; cb 1; cb 2; cb 4].
Definition utf8 (_ : text) (d : bytes) : option text := utf8_decode d.
(** What the stdout copier reads when it is cancelled after the first piece. *)
Definition ex83_rd (e : ending) (s : RunOptionsModel.stream) : sreader :=
  match s with
  | RunOptionsModel.PStdout => {| sr_buf := []; sr_in := match e with EndEof => [[104; 105; 195]; [169]] | _ => [[104; 105]] end; sr_end := e |}
  | RunOptionsModel.PStderr => {| sr_buf := []; sr_in := [[120]]; sr_end := EndEof |}
  | _ => {| sr_buf := []; sr_in := []; sr_end := EndEof |}
  end.
Lemma ex83_run e t : (e = EndEof /\ t = TValue tt) \/ (e = EndCancel /\ t = TCancelled) ->
  exists w', await_command utf8 RouteProps.ex_world ex83_cmd 10 (ex83_rd e) (ex83_sinks (sr_data (ex83_rd e RunOptionsModel.PStdout)))
    (Ok (AText (match e with EndEof => [104; 105; 233] | _ => [104; 105] end))) w'
    /\ (t = TValue tt -> only_shellous_cancels w').
Proof.
  intros CASES.
  assert (RUN : exists w', bindM (aexit (c_opts ex83_cmd) false true None) (fun _ => run_result (c_opts ex83_cmd) (Some (sr_data (ex83_rd e RunOptionsModel.PStdout))) (Some [120]) (o_encoding (c_opts ex83_cmd)) true) launched3
     (Ok {| r_exit := 0; r_output := sr_data (ex83_rd e RunOptionsModel.PStdout); r_error := [120]; r_cancelled := false; r_encoding := utf8_name |}) w'
     /\ task_out w' 1 = Some (TValue tt) /\ task_out w' 2 = Some t /\ (t = TValue tt -> only_shellous_cancels w')).
  { destruct CASES as [[-> ->]|[-> ->]]; eexists; (split; [|]).
    - all: go. 1: wait_by (end3 (TValue tt)). all: go. 1: wait_by [fin 5 (TValue tt); cb 5]. all: go.
    - split; [reflexivity|]. split; [reflexivity|]. intros _ i k H O. do 6 (destruct i as [|i]; [cbn in H; injection H as <-; cbn in O; discriminate|]). destruct i; discriminate.
    - all: go. 1: wait_by (end3 TCancelled). all: go. 1: wait_by [fin 5 (TValue tt); cb 5]. all: go.
    - split; [reflexivity|]. split; [reflexivity|]. discriminate. }
  destruct RUN as (w' & H & T1 & T2 & OS). exists w'. split; [|exact OS].
  assert (ST : exists s hs wi, RunOptionsModel.start RouteProps.ex_world ex83_cmd 10 = (s, Ok (hs, wi))
    /\ RunOptionsModel.s_output_bytes s = true /\ RunOptionsModel.s_error_bytes s = true /\ RunOptionsModel.s_pty s = None
    /\ RunOptionsModel.is_pipe (fst (fst hs)) = true
    /\ RunOptionsModel.wi_tasks wi = [TCopy RunOptionsModel.PStderr ResultErr (Some 1024); TCopy RunOptionsModel.PStdout ResultOut None; RunOptionsModel.TWriteBytes [] RunOptionsModel.PStdin false]).
  { RouteProps.run_it (RunOptionsModel.start RouteProps.ex_world ex83_cmd 10). vm_compute. repeat split. }
  destruct ST as (s & [[hin hout] herr] & wi & ST & OB & EB & PT & PI & TK). cbn in PI.
  assert (V : Ok (AText (match e with EndEof => [104; 105; 233] | _ => [104; 105] end)) = await_value utf8 (c_opts ex83_cmd)
     (Ok {| r_exit := 0; r_output := sr_data (ex83_rd e RunOptionsModel.PStdout); r_error := [120]; r_cancelled := false; r_encoding := utf8_name |})).
  { destruct CASES as [[-> _]|[-> _]]; vm_compute; reflexivity. }
  rewrite V. eapply aw_ran with (hin := hin) (hout := hout) (herr := herr) (wi := wi) (w0 := launched3); [reflexivity|exact ST| | |].
  - rewrite OB, EB, PT. apply ex_launched3.
  - rewrite OB, EB, PI. exact H.
  - intros src dst lim Hin. rewrite TK in Hin. destruct Hin as [[= <- <- <-]|[[= <- <- <-]|[[=]|[]]]].
    + exists 1%nat, [[120]], None, None. split; [cbn; auto|]. split; [|split; [|rewrite T1; reflexivity]].
      * eapply ans_data; [reflexivity|discriminate|]. eapply ans_eof. reflexivity.
      * eapply cp_error_limit. vm_compute. reflexivity.
    + exists 2%nat. destruct CASES as [[-> ->]|[-> ->]].
      * exists [[104; 105; 195]; [169]], None, None. split; [cbn; auto|]. split; [|split; [|rewrite T2; reflexivity]].
        -- eapply ans_data; [reflexivity|discriminate|]. eapply ans_data; [reflexivity|discriminate|]. eapply ans_eof. reflexivity.
        -- eapply cp_output. reflexivity.
      * exists [[104; 105]], (Some CancelledError), (Some CancelledError). split; [cbn; auto|]. split; [|split; [|rewrite T2; reflexivity]].
        -- eapply ans_data; [reflexivity|discriminate|]. eapply ans_exc. reflexivity.
        -- eapply cp_output. reflexivity.
Qed.
Example c83_example : exists w',
  RunOptionsModel.w_same_std RouteProps.ex_world = false /\ RouteSpec.api_options (c_opts ex83_cmd) /\ RouteSpec.old_fds 10 (c_opts ex83_cmd)
  /\ o_output (c_opts ex83_cmd) = VRedirect DEFAULT
  /\ await_command utf8 RouteProps.ex_world ex83_cmd 10 (ex83_rd EndEof) (ex83_sinks [104; 105; 195; 169]) (Ok (AText [104; 105; 233])) w'
  /\ not_cancelled (c_opts ex83_cmd) (AText [104; 105; 233]) /\ only_shellous_cancels w'.
Proof.
  destruct (ex83_run EndEof (TValue tt)) as (w' & H & OS); [now left|]. exists w'. split; [reflexivity|]. split; [repeat split; reflexivity|]. split; [repeat split; try lia; exact Logic.I|]. split; [reflexivity|]. split; [exact H|]. split; [now left|now apply OS].
Qed.

(** `await cmd.stdout(logger).stderr(writer)`: the child writes "hi ", then the
    rest of the line and "é" to standard output; the messages are "hi" and "é".
    It writes "xy" to standard error in two pieces. *)
Definition ex83l_cmd : command := RouteProps.ex_cmd RouteProps.dflt (VLogger 5) (VStreamWriter 6) PtyOff.
Definition ex83l_rd (s : RunOptionsModel.stream) : sreader :=
  {| sr_buf := []; sr_in := match s with RunOptionsModel.PStdout => [[104; 105; 32]; [10; 195]; [169]] | RunOptionsModel.PStderr => [[120]; [121]] | _ => [] end; sr_end := EndEof |}.
Definition ex83l_sinks (s : RunOptionsModel.sink) : list Z :=
  match s with Sink (VLogger _) => [-1; 104; 105; -1; 233] | Sink (VStreamWriter _) => [120; 121; -1] | _ => [] end.
Example c83_logger_example : exists w',
  await_command utf8 RouteProps.ex_world ex83l_cmd 10 ex83l_rd ex83l_sinks (Ok (AText [])) w'
  /\ not_cancelled (c_opts ex83l_cmd) (AText []) /\ only_shellous_cancels w'
  /\ exists s hs wi, RunOptionsModel.start RouteProps.ex_world ex83l_cmd 10 = (s, Ok (hs, wi))
     /\ In (TCopy RunOptionsModel.PStdout (Sink (VLogger 5)) None) (RunOptionsModel.wi_tasks wi)
     /\ In (TCopy RunOptionsModel.PStderr (Sink (VStreamWriter 6)) None) (RunOptionsModel.wi_tasks wi).
Proof.
  assert (RUN : exists w', bindM (aexit (c_opts ex83l_cmd) false true None) (fun _ => run_result (c_opts ex83l_cmd) None None (o_encoding (c_opts ex83l_cmd)) true) launched3
     (Ok {| r_exit := 0; r_output := []; r_error := []; r_cancelled := false; r_encoding := utf8_name |}) w'
     /\ task_out w' 1 = Some (TValue tt) /\ task_out w' 2 = Some (TValue tt) /\ only_shellous_cancels w').
  { eexists; split.
    - all: go. 1: wait_by (end3 (TValue tt)). all: go. 1: wait_by [fin 5 (TValue tt); cb 5]. all: go.
    - split; [reflexivity|]. split; [reflexivity|]. intros i k H O. do 6 (destruct i as [|i]; [cbn in H; injection H as <-; cbn in O; discriminate|]). destruct i; discriminate. }
  destruct RUN as (w' & H & T1 & T2 & OS). exists w'.
  assert (ST : exists s hs wi, RunOptionsModel.start RouteProps.ex_world ex83l_cmd 10 = (s, Ok (hs, wi))
    /\ RunOptionsModel.s_output_bytes s = false /\ RunOptionsModel.s_error_bytes s = false /\ RunOptionsModel.s_pty s = None
    /\ RunOptionsModel.is_pipe (fst (fst hs)) = true
    /\ RunOptionsModel.wi_tasks wi = [TCopy RunOptionsModel.PStderr (Sink (VStreamWriter 6)) None; TCopy RunOptionsModel.PStdout (Sink (VLogger 5)) None; RunOptionsModel.TWriteBytes [] RunOptionsModel.PStdin false]).
  { RouteProps.run_it (RunOptionsModel.start RouteProps.ex_world ex83l_cmd 10). vm_compute. repeat split. }
  destruct ST as (s & [[hin hout] herr] & wi & ST & OB & EB & PT & PI & TK). cbn in PI.
  split; [|split; [now left|split; [exact OS|exists s, (hin, hout, herr), wi; split; [exact ST|]; rewrite TK; cbn; auto]]].
  change (Ok (AText [])) with (await_value utf8 (c_opts ex83l_cmd) (Ok {| r_exit := 0; r_output := []; r_error := []; r_cancelled := false; r_encoding := utf8_name |})).
  eapply aw_ran with (hin := hin) (hout := hout) (herr := herr) (wi := wi) (w0 := launched3); [reflexivity|exact ST| | |].
  - rewrite OB, EB, PT. apply ex_launched3.
  - rewrite OB, EB, PI. exact H.
  - intros src dst lim Hin. rewrite TK in Hin. destruct Hin as [[= <- <- <-]|[[= <- <- <-]|[[=]|[]]]].
    + exists 1%nat, [[120]; [121]], None, None. split; [cbn; auto|]. split; [|split; [|rewrite T1; reflexivity]].
      * unfold reads_by. eapply ans_data; [reflexivity|discriminate|]. eapply ans_data; [reflexivity|discriminate|]. eapply ans_eof. reflexivity.
      * exact (cp_writer utf8 (c_opts ex83l_cmd) false 6 (fun _ => None) None [[120]; [121]] None [Write [120]; Write [121]; Close; WaitClosed] None eq_refl).
    + exists 2%nat, [[104; 105; 32; 10]; [195; 169]], None, None. split; [cbn; auto|]. split; [|split; [|rewrite T2; reflexivity]].
      * unfold reads_by. eapply ans_data; [vm_compute; reflexivity|discriminate|]. eapply ans_data; [vm_compute; reflexivity|discriminate|]. eapply ans_eof. vm_compute. reflexivity.
      * exact (cp_logger utf8 (c_opts ex83l_cmd) false 5 [[104; 105; 32; 10]; [195; 169]] None [[104; 105]; [233]] None eq_refl).
Qed.

(** The hypothesis on cancellation is needed: if some other code in the program
    cancels the task that copies standard output (the task is listed by
    asyncio.all_tasks(), and harvest skips cancelled tasks, harvest.py 45-48),
    the call succeeds and returns a truncated text. *)
Definition c83_any_cancellation_claim : Prop := forall dec R c next rd sinks t w',
  let o := c_opts c in
  RunOptionsModel.w_same_std R = false -> RouteSpec.api_options o -> RouteSpec.old_fds next o ->
  o_output o = VRedirect DEFAULT -> o_pty o = PtyOff ->
  await_command dec R c next rd sinks (Ok (AText t)) w' -> o_catch_cancelled o = false ->
  sr_end (rd RunOptionsModel.PStdout) = EndEof.
Theorem c83_any_cancellation_refuted : ~ c83_any_cancellation_claim.
Proof.
  intros C. destruct (ex83_run EndCancel TCancelled) as (w' & H & _); [now right|].
  assert (X : sr_end (ex83_rd EndCancel RunOptionsModel.PStdout) = EndEof); [|discriminate X].
  eapply (C utf8 RouteProps.ex_world ex83_cmd 10 (ex83_rd EndCancel)); [reflexivity|repeat split; reflexivity|repeat split; try lia; exact Logic.I|reflexivity|reflexivity|exact H|reflexivity].
Qed.
Print Assumptions c83_any_cancellation_refuted.
