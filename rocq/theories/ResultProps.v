(** Theorems for C22-C25, C41 and C68 (results). *)
From Verif Require Import ResultModel ResultSpec ResultProofs.
Open Scope Z_scope.

Definition res1 (z : Z) (c : bool) (out err : bytes) : result :=
  {| r_exit := z; r_output := out; r_error := err; r_cancelled := c; r_encoding := [117] |}.

(** C22: a pipeline in which every command ran reports the exit status and the
    error output of its key command and the output of its last command. *)
Theorem c22_pipeline_result :
  forall os rs d cancelled, Forall2 carries os rs -> rs <> [] ->
  exists k, key_of rs k /\ convert_result_list os cancelled
    = Ok {| r_exit := r_exit k; r_output := r_output (List.last rs d); r_error := r_error k;
             r_cancelled := cancelled; r_encoding := r_encoding (List.last rs d) |}.
Proof. intros. now apply convert_ok. Qed.
Print Assumptions c22_pipeline_result.

(** ... and there is only one such command. *)
Theorem c22_key_unique : forall rs a b, key_of rs a -> key_of rs b -> a = b.
Proof. exact key_unique. Qed.
Print Assumptions c22_key_unique.

(** The reported status is 0 exactly when no command failed by itself (when
    some command was not cancelled). *)
Theorem c22_status_zero :
  forall os rs cancelled r, Forall2 carries os rs -> (exists x, In x rs /\ r_cancelled x = false) ->
  convert_result_list os cancelled = Ok r -> (r_exit r = 0 <-> forall x, In x rs -> ~ failed x).
Proof.
  intros os rs cancelled r H (x & Hx & Cx) E.
  assert (Hne : rs <> []) by (intros ->; destruct Hx).
  destruct (convert_ok os rs cancelled x H Hne) as (k & K & E'). rewrite E' in E. inversion E; subst r; clear E.
  cbn [r_exit]. inversion K as [p z q Er F N|p z q Er C N L|p z Er C]; subst.
  - split; [intro Z; destruct F; contradiction|]. intro A. exfalso. apply (A k); [apply in_or_app; right; now left|exact F].
  - split; [auto|]. intros _. destruct (Z.eq_dec (r_exit k) 0) as [|D]; [assumption|].
    exfalso. apply (N k); [apply in_or_app; right; now left|]. split; assumption.
  - rewrite C in Cx by exact Hx. discriminate.
Qed.
Print Assumptions c22_status_zero.

Example c22_example :
  convert_result_list [ORes (res1 0 false [1] []); OExn (ResultError (res1 (-15) true [2] [7])); OExn (ResultError (res1 3 false [3] [8]));
                       OExn (ResultError (res1 4 false [4] [9]))] false
  = Ok (res1 3 false [4] [8]).
Proof. reflexivity. Qed.

(** C23: the first exception that is not a non-zero exit is raised. *)
Theorem c23_first_other_exception :
  forall pre e post cancelled, other_error e ->
  (forall e', In (OExn e') pre -> ~ other_error e') ->
  convert_result_list (pre ++ OExn e :: post) cancelled = Err e.
Proof.
  intros pre e post cancelled He N. destruct (other_ex_first _ pre e post eq_refl He N) as (t & E).
  unfold convert_result_list. now rewrite E.
Qed.
Print Assumptions c23_first_other_exception.

(** ... and a result is produced only if no command ended that way. *)
Theorem c23_result_means_no_exception :
  forall l cancelled r, convert_result_list l cancelled = Ok r -> forall e, In (OExn e) l -> ~ other_error e.
Proof.
  intros l cancelled r H e He X. apply other_errorb in X.
  assert (Ho : In e (other_ex l)).
  { unfold other_ex. apply in_flat_map. exists (OExn e). split; [exact He|]. rewrite X. now left. }
  unfold convert_result_list in H. destruct (other_ex l); [destruct Ho|discriminate].
Qed.
Print Assumptions c23_result_means_no_exception.

(** A member task that was cancelled before it could turn its cancellation
    into a ResultError makes the conversion fail with an AssertionError unless
    an earlier command failed. *)
Theorem c23_cancelled_member :
  forall pre rs post cancelled, Forall2 carries pre rs -> (forall x, In x rs -> ~ failed x) ->
  other_ex post = [] -> convert_result_list (pre ++ OExn CancelledError :: post) cancelled = Err AssertionError.
Proof.
  intros pre rs post cancelled H N Hp. unfold convert_result_list.
  assert (E : other_ex (pre ++ OExn CancelledError :: post) = []).
  { unfold other_ex in *. rewrite flat_map_app. cbn [flat_map is_Exception andb app]. rewrite Hp, app_nil_r.
    apply (carries_no_other _ _ H). }
  rewrite E. clear E.
  enough (F : forall acc, (forall a, acc = Some a -> ~ failed a) ->
              find_key (pre ++ OExn CancelledError :: post) acc = Err AssertionError) by now rewrite F by discriminate.
  induction H as [|o r os rs Ho Hs IH]; intros acc Ha; [reflexivity|].
  cbn [find_key app]. rewrite (get_result_carries _ _ Ho).
  assert (Hc : ~ failed (compare_result acc r)).
  { destruct acc as [b|]; [|apply N; now left]. rewrite compare_result_spec.
    destruct (_ && _); [now apply Ha|apply N; now left]. }
  apply failedb_false in Hc as Hc'. unfold failedb in Hc'. rewrite Hc'.
  apply IH; [intros; apply N; now right|]. intros a [= <-]. exact Hc.
Qed.
Print Assumptions c23_cancelled_member.

Example c23_example :
  convert_result_list [ORes (res1 0 false [] []); OExn (ResultError (res1 1 false [] [])); OExn FileNotFoundError; OExn BrokenPipeError] false
  = Err FileNotFoundError.
Proof. reflexivity. Qed.

(** C24: when result() raises and what. *)
Theorem c24_check_table :
  forall r o cancelled timed_out,
  (cancelled = true -> o_catch_cancelled o = false -> check_result r o cancelled timed_out = Err CancelledError)
  /\ (cancelled = true -> o_catch_cancelled o = true -> timed_out = false -> check_result r o cancelled timed_out = Err (ResultError r))
  /\ (cancelled = false \/ (o_catch_cancelled o = true /\ timed_out = true) ->
      (accepted o (r_exit r) -> check_result r o cancelled timed_out = Ok r)
      /\ (~ accepted o (r_exit r) -> check_result r o cancelled timed_out = Err (ResultError r))).
Proof. exact check_result_spec. Qed.
Print Assumptions c24_check_table.

(** `.result` never raises for an ordinary exit status or a signal. *)
Theorem c24_result_property :
  forall c c' code out err enc, cmd_result c = Ok c' -> -255 <= code <= 255 ->
  runner_result (Some code) out err enc (c_opts c') false false true
  = Ok {| r_exit := code; r_output := match out with Some b => b | None => [] end;
           r_error := match err with Some b => b | None => [] end; r_cancelled := false; r_encoding := enc |}.
Proof.
  intros c c' code out err enc H Hc.
  assert (E : o_exit_codes (c_opts c') = Some (CRange (-255) 256)).
  { revert H. unfold cmd_result, cmd_set, ctx_set, mk_command. cbn [kwds_result k_alt_name k_coerce_arg].
    destruct c as [args o]. cbn [c_args c_opts fst snd].
    repeat (match goal with |- context [match ?x with _ => _ end] => destruct x eqn:? | _ => idtac end; cbn [bind]; try discriminate).
    all: try (intros [= <-]; reflexivity).
    all: try (unfold bind; repeat (match goal with |- context [match ?x with _ => _ end] => destruct x eqn:? end; try discriminate); intros [= <-]; reflexivity). }
  unfold runner_result.
  match goal with |- check_result ?r ?o ?a ?b = _ => destruct (check_result_spec r o a b) as (_ & _ & A) end.
  destruct (A (or_introl eq_refl)) as [B _]. apply B. unfold accepted. rewrite E. cbn. lia.
Qed.
Print Assumptions c24_result_property.

Example c24_example :
  check_result (res1 1 false [] []) default_options false false = Err (ResultError (res1 1 false [] []))
  /\ check_result (res1 0 false [] []) default_options false false = Ok (res1 0 false [] [])
  /\ check_result (res1 0 true [] []) default_options true false = Err CancelledError.
Proof. repeat split. Qed.

(** C41: result() raises TypeError exactly while there is no exit code. *)
Theorem c41_result_before_exit :
  forall code out err enc o cancelled timed_out check,
  (code = None -> runner_result code out err enc o cancelled timed_out check
                  = Err (TypeError "Runner.result(): Process has not exited"))
  /\ (forall r, runner_result code out err enc o cancelled timed_out check = Ok r
             \/ runner_result code out err enc o cancelled timed_out check = Err (ResultError r) -> code = Some (r_exit r)).
Proof.
  intros. split; [now intros ->|]. intros r. destruct code as [z|]; cbn; [|intros [H|H]; discriminate].
  destruct check; [|intros [H|H]; [inversion H; reflexivity|discriminate]].
  unfold check_result. destruct (cancelled && _); [intros [H|H]; discriminate|].
  destruct (_ || _); intros [H|H]; try discriminate; inversion H; reflexivity.
Qed.
Print Assumptions c41_result_before_exit.

(** C25. *)
Definition c25_full_claim := forall r,
  (r_exit r >= 0 -> exit_signal linux_signals r = Ok None)
  /\ (r_exit r < 0 -> r_exit r >= -64 -> exit_signal linux_signals r = Ok (Some (- r_exit r)))
  /\ (result_bool r = true <-> r_exit r = 0).
(** Real-time signals between SIGRTMIN and SIGRTMAX are not members of
    signal.Signals: exit_signal raises ValueError. *)
Theorem c25_realtime_signal_refuted : ~ c25_full_claim.
Proof.
  intro H. destruct (H (res1 (-40) false [] [])) as (_ & A & _).
  assert (B : exit_signal linux_signals (res1 (-40) false [] []) = Ok (Some 40)) by (apply A; cbn; lia). discriminate.
Qed.
Print Assumptions c25_realtime_signal_refuted.

(** Missing: signals without a name in signal.Signals. *)
Theorem c25_exit_signal_partial :
  forall known r,
  (r_exit r >= 0 -> exit_signal known r = Ok None)
  /\ (r_exit r < 0 -> In (- r_exit r) known -> exit_signal known r = Ok (Some (- r_exit r)))
  /\ (forall s, exit_signal known r = Ok (Some s) -> s = - r_exit r /\ s > 0 /\ In s known)
  /\ (exit_signal known r = Ok None -> r_exit r >= 0)
  /\ (result_bool r = true <-> r_exit r = 0).
Proof.
  intros known r. unfold exit_signal, result_bool. rewrite Z.geb_leb. destruct (Z.leb_spec 0 (r_exit r)) as [L|L].
  - repeat split; intros; try lia; try discriminate; now apply Z.eqb_eq.
  - destruct (existsb _ known) eqn:E.
    + apply existsb_exists in E as (y & Hy & Ey). apply Z.eqb_eq in Ey. subst y.
      split; [lia|]. split; [reflexivity|]. split; [|split; [discriminate|apply Z.eqb_eq]].
      intros s [= <-]. repeat split; [lia|exact Hy].
    + split; [lia|]. split; [|split; [discriminate|split; [discriminate|apply Z.eqb_eq]]].
      intros _ Hin. exfalso. assert (T : existsb (Z.eqb (- r_exit r)) known = true).
      { apply existsb_exists. exists (- r_exit r). split; [exact Hin|apply Z.eqb_refl]. }
      congruence.
Qed.
Print Assumptions c25_exit_signal_partial.

Example c25_example : exit_signal linux_signals (res1 (-9) false [] []) = Ok (Some 9).
Proof. reflexivity. Qed.

(** C68: exit_codes of the members of a pipeline.  The entry of each member is
    what its own result() gives. *)
Definition member (co : Z * opts) : outcome :=
  task_outcome (runner_result (Some (fst co)) None None [117] (snd co) false false true).
Definition c68_full_claim := forall (l : list (Z * opts)) d, l <> [] ->
  ((exists r, pipe_run_result (map member l) (snd (List.last l d)) false = Ok r)
   <-> Forall (fun co => accepted (snd co) (fst co)) l).

Definition opts_allow1 : opts :=
  match ctx_set default_options {|
  k_path := None; k_env := None; k_inherit_env := None; k_encoding := None;
  k_return_result := None; k_catch_cancelled := None;
  k_exit_codes := Some (Some (CSet [0; 1])); k_timeout := None;
  k_cancel_timeout := None; k_cancel_signal := None; k_alt_name := None; k_pass_fds := None;
  k_pass_fds_close := None; k_writable := None; k_start_new_session := None; k_preexec_fn := None;
  k_pty := None; k_close_fds := None; k_audit_callback := None; k_coerce_arg := None;
  k_error_limit := None |} with Ok o => o | Err _ => default_options end.

(** False: `grep.set(exit_codes={0,1}) | cat` raises ResultError when grep
    exits with 1 (result.py 82-90 forgets that grep accepted it). *)
Theorem c68_member_exit_codes_refuted : ~ c68_full_claim.
Proof.
  intro H. destruct (H [(1, opts_allow1); (0, default_options)] (0, default_options) ltac:(discriminate)) as [_ B].
  assert (A : Forall (fun co : Z * opts => accepted (snd co) (fst co)) [(1, opts_allow1); (0, default_options)]).
  { constructor; [right; left; reflexivity|]. constructor; [reflexivity|constructor]. }
  destruct (B A) as (r & E). vm_compute in E. discriminate E.
Qed.
Print Assumptions c68_member_exit_codes_refuted.

(** What does hold: the pipeline's key exit status is checked against the
    exit_codes of the last command only. *)
Theorem c68_last_exit_codes_partial :
  forall (l : list (Z * opts)) d, l <> [] ->
  exists k, key_of (map (fun co => res1 (fst co) false [] []) l) k /\
  ((exists r, pipe_run_result (map member l) (snd (List.last l d)) false = Ok r)
   <-> accepted (snd (List.last l d)) (r_exit k)).
Proof.
  intros l d Hne.
  assert (F : Forall2 carries (map member l) (map (fun co => res1 (fst co) false [] []) l)).
  { clear. induction l as [|[z o] l IH]; cbn [map]; constructor; [|exact IH].
    unfold member, runner_result. cbn [fst snd]. unfold check_result. cbn [andb].
    destruct (_ || _); [right|left]; reflexivity. }
  destruct (convert_ok _ _ false (res1 0 false [] []) F) as (k & K & E).
  { destruct l; [congruence|discriminate]. }
  exists k. split; [exact K|]. unfold pipe_run_result. rewrite E.
  match goal with |- (exists r, check_result ?r ?o _ _ = _) <-> _ =>
    destruct (check_result_spec r o false false) as (_ & _ & A) end.
  destruct (A (or_introl eq_refl)) as [B C]. split.
  - intros (r & Er).
    match type of B with accepted ?o ?z -> _ =>
      destruct (container_in z (match o_exit_codes o with
                  | Some c => if container_truth c then c else CSet [0] | None => CSet [0] end)) eqn:Q end.
    + now apply accepted_iff in Q.
    + rewrite C in Er; [discriminate|]. intro Z. apply accepted_iff in Z. congruence.
  - intros Z. eexists. apply B. exact Z.
Qed.
Print Assumptions c68_last_exit_codes_partial.
