(** C121: configuring a context is configuring its commands.  C122: the program
    that is run is the one that find_command reports. *)
From Verif Require Import Base CommandModel CommandSpec CommandProofs CmdContextModel CmdContextSpec.
From Verif Require RunOptionsModel.
Open Scope Z_scope.

Lemma upd_ctx a o u : a <> [] -> apply_upd (a, o) u = bind (cx_upd o u) (fun o' => Ok (a, o')).
Proof.
  intros Ha. assert (M : forall o', mk_command a o' = Ok (a, o')).
  { intros o'. unfold mk_command. destruct a; [congruence|reflexivity]. }
  destruct u; cbn [apply_upd cx_upd];
    unfold cmd_stdin, cmd_stdout, cmd_stderr, cmd_env, cmd_set, cx_stdin, cx_stdout, cx_stderr, cx_env, cx_set;
    cbn [c_opts c_args fst snd].
  - destruct (set_stdin o v close); cbn [bind]; auto.
  - destruct (set_stdout o v append close); cbn [bind]; auto.
  - destruct (set_stderr o v append close); cbn [bind]; auto.
  - cbn [bind]. apply M.
  - destruct (ctx_set o k); cbn [bind]; auto.
Qed.

Lemma upds_ctx us : forall a o, a <> [] ->
  apply_upds (a, o) us = bind (cx_upds o us) (fun o' => Ok (a, o')).
Proof.
  induction us as [|u us IH]; intros a o Ha; cbn [apply_upds cx_upds]; [reflexivity|].
  rewrite upd_ctx by exact Ha. destruct (cx_upd o u); cbn [bind]; [apply IH; exact Ha|reflexivity].
Qed.

(** C121: the calls on the context fail exactly when the same calls on a command
    fail, with the same exception. *)
Theorem c121_same_errors :
  forall ctx us c e, c_args c <> [] -> c_opts c = ctx ->
  (cx_upds ctx us = Err e <-> apply_upds c us = Err e).
Proof.
  intros ctx us [a o] e Ha <-. cbn [c_args c_opts fst snd] in *. rewrite upds_ctx by exact Ha.
  destruct (cx_upds o us) as [x|x]; cbn [bind]; split; intros H; try discriminate H; injection H as ->; reflexivity.
Qed.
Print Assumptions c121_same_errors.

(** C121: what a context configured by any history of calls holds. *)
Theorem c121_context_history :
  forall ctx us,
  (forallb valid_upd us = true ->
     exists ctx', cx_upds ctx us = Ok ctx' /\ follows_history us ctx ctx'
     /\ (wf_env ctx -> wf_env ctx' /\ forall k, own_var ctx' k = var_after us k (own_var ctx k)))
  /\ (forallb valid_upd us = false -> exists e, cx_upds ctx us = Err e).
Proof.
  intros ctx us. set (c := ([VNone], ctx) : command).
  assert (Hc : c_args c <> []) by discriminate.
  destruct (apply_upds_history us c Hc) as [A B]. split.
  - intros V. destruct (A V) as (o' & E & F). unfold c in E. rewrite upds_ctx in E by discriminate.
    destruct (cx_upds ctx us) as [ctx'|] eqn:E'; [|discriminate E]. cbn [bind] in E.
    injection E as <-. exists ctx'. split; [reflexivity|]. split; [exact F|]. intros W.
    destruct (apply_upds_env us c ([VNone], ctx') Hc W) as [P Q0].
    { unfold c. rewrite upds_ctx by discriminate. rewrite E'. reflexivity. }
    split; [exact P|exact Q0].
  - intros V. destruct (B V) as (e & E). exists e. unfold c in E. rewrite upds_ctx in E by discriminate.
    destruct (cx_upds ctx us); [discriminate E|]. cbn [bind] in E. congruence.
Qed.
Print Assumptions c121_context_history.

Lemma latest_none {A} (f : kwds -> option A) us init :
  (forall k, In (USet k) us -> f k = None) -> latest (of_set f) us init = init.
Proof.
  intros H. unfold latest.
  replace (flat_map _ (rev us)) with (@nil A); [reflexivity|].
  symmetry. rewrite <- (rev_involutive us) in H. revert H. generalize (rev us) as l. clear us.
  induction l as [|u l IH]; intros H; [reflexivity|]. cbn [flat_map].
  rewrite IH. 2:{ intros k Hk. apply H. cbn [rev]. apply in_app_iff. left. exact Hk. }
  destruct u; cbn [of_set]; try reflexivity. rewrite H; [reflexivity|].
  cbn [rev]. apply in_app_iff. right. left. reflexivity.
Qed.

(** C121: a command made by a configured context is the command made first and
    configured afterwards: same arguments, options, effects of coerce_arg and
    exception.  (A history that changes coerce_arg itself is excluded: it
    changes how the arguments are read.) *)
Theorem c121_configure_then_call :
  forall pystr St (cf : nat -> value -> St -> St * res value) ctx us args (st : St),
  (forall k, In (USet k) us -> k_coerce_arg k = None) ->
  forallb valid_upd us = true ->
  exists ctx', cx_upds ctx us = Ok ctx'
  /\ ctx_call pystr St cf ctx' args st
     = let (st1, r) := ctx_call pystr St cf ctx args st in (st1, bind r (fun c => apply_upds c us)).
Proof.
  intros pystr St cf ctx us args st Hco V.
  destruct (proj1 (c121_context_history ctx us) V) as (ctx' & E & F & _).
  exists ctx'. split; [exact E|]. unfold ctx_call.
  rewrite (fh_coerce_arg _ _ _ F), latest_none by exact Hco.
  destruct (coerce pystr St cf (o_coerce_arg ctx) args st) as [st1 [a|e]]; cbn [bind]; [|reflexivity].
  f_equal. unfold mk_command. destruct a as [|x a]; cbn [bind]; [reflexivity|].
  rewrite upds_ctx by discriminate. rewrite E. reflexivity.
Qed.
Print Assumptions c121_configure_then_call.

(** C121: [context.result] is the context with the result and exit_codes
    options changed, and nothing else: every exit status is accepted. *)
Theorem c121_result :
  forall ctx, exists ctx', cx_result ctx = Ok ctx' /\ o_return_result ctx' = true
  /\ o_exit_codes ctx' = Some (CRange (-255) 256) (* range(-255, 256) *)
  /\ ctx = {| o_path := o_path ctx'; o_env := o_env ctx'; o_inherit_env := o_inherit_env ctx';
      o_input := o_input ctx'; o_input_close := o_input_close ctx';
      o_output := o_output ctx'; o_output_append := o_output_append ctx'; o_output_close := o_output_close ctx';
      o_error := o_error ctx'; o_error_append := o_error_append ctx'; o_error_close := o_error_close ctx';
      o_error_limit := o_error_limit ctx'; o_encoding := o_encoding ctx'; o_return_result := o_return_result ctx;
      o_catch_cancelled := o_catch_cancelled ctx'; o_exit_codes := o_exit_codes ctx; o_timeout := o_timeout ctx';
      o_cancel_timeout := o_cancel_timeout ctx'; o_cancel_signal := o_cancel_signal ctx'; o_alt_name := o_alt_name ctx';
      o_pass_fds := o_pass_fds ctx'; o_pass_fds_close := o_pass_fds_close ctx'; o_writable := o_writable ctx';
      o_start_new_session := o_start_new_session ctx'; o_preexec_fn := o_preexec_fn ctx'; o_pty := o_pty ctx';
      o_close_fds := o_close_fds ctx'; o_audit_callback := o_audit_callback ctx'; o_coerce_arg := o_coerce_arg ctx' |}.
Proof. intros ctx. eexists. split; [reflexivity|]. split; [reflexivity|]. split; [reflexivity|]. destruct ctx; reflexivity. Qed.
Print Assumptions c121_result.

(** The history changes every kind of setting and the arguments are coerced by a
    function that counts its calls. *)
Example c121_example :
  let cf := fun (_ : nat) v n => (S n, Ok v) in
  let kw := options_set default_options (mk_kwds None None None None None None None None None None None
     None None None None None None None None (Some (Some 0%nat)) None) in
  let us := [USet kwds_result; UStdout (VPath [7]) true false; UEnv [([65], [66])];
             UStdin (VStr [104]) false; UStderr (VRedirect STDOUT) false false] in
  forallb valid_upd us = true /\ (forall k, In (USet k) us -> k_coerce_arg k = None)
  /\ exists ctx', cx_upds kw us = Ok ctx'
     /\ ctx_call (fun _ => []) nat cf ctx' [VStr [1]; VSeq KTuple [VStr [2]; VStr [3]]] 0%nat
        = (2%nat, Ok ([VStr [1]; VStr [2]; VStr [3]], ctx'))
     /\ o_output ctx' = VPath [7] /\ o_output_append ctx' = true /\ o_return_result ctx' = true
     /\ o_error ctx' = VRedirect STDOUT /\ o_env ctx' = Some [([65], [66])].
Proof.
  cbv zeta. split; [reflexivity|]. split.
  { intros k [H|[H|[H|[H|[H|[]]]]]]; try discriminate H. injection H as <-. reflexivity. }
  eexists. split; [vm_compute; reflexivity|]. vm_compute. repeat split.
Qed.

(** * C122 *)

Lemma split_last_noslash p : fst (split_last p) = [] <-> ~ In slash p.
Proof.
  induction p as [|c r IH]; cbn [split_last]; [cbn; tauto|].
  destruct (split_last r) as [h t]. cbn [fst] in IH. destruct h as [|x h].
  - destruct (c =? slash) eqn:E; cbn [fst].
    + split; [discriminate|]. intros N. exfalso. apply N. left. lia.
    + split; [|reflexivity]. intros _ [H|H]; [lia|]. apply (proj1 IH eq_refl H).
  - cbn [fst]. split; [discriminate|]. intros N. exfalso.
    assert (In slash r -> False) by (intros; apply N; right; assumption). destruct IH as [_ IH].
    specialize (IH ltac:(auto)). discriminate IH.
Qed.

Lemma split_last_tail p : ~ In slash p -> split_last p = ([], p).
Proof.
  induction p as [|c r IH]; intros N; cbn [split_last]; [reflexivity|].
  rewrite IH by (intros H; apply N; right; exact H).
  destruct (c =? slash) eqn:E; [|reflexivity]. exfalso. apply N. left. lia.
Qed.

Lemma lstrip_nil p : lstrip p = [] -> forallb (Z.eqb slash) p = true.
Proof.
  induction p as [|c r IH]; cbn [lstrip forallb]; [reflexivity|].
  destruct (c =? slash) eqn:E; [|discriminate]. intros H. rewrite (IH H). lia.
Qed.

Lemma forallb_rev {A} (f : A -> bool) l : forallb f (rev l) = forallb f l.
Proof.
  induction l as [|x l IH]; [reflexivity|]. cbn [rev forallb]. rewrite forallb_app. cbn [forallb].
  rewrite IH. destruct (f x), (forallb f l); reflexivity.
Qed.

Lemma dirname_nil p : dirname p = [] <-> ~ In slash p.
Proof.
  rewrite <- split_last_noslash. unfold dirname, path_split.
  destruct (split_last p) as [h t]; cbn [fst]. destruct (forallb (Z.eqb slash) h) eqn:E; cbn [fst]; [tauto|].
  split; [|intros ->; reflexivity]. intros H. apply (f_equal (@rev Z)) in H. rewrite rev_involutive in H.
  cbn [rev] in H. apply lstrip_nil in H. rewrite forallb_rev in H. congruence.
Qed.

Lemma split_noslash p : ~ In slash p -> path_split p = ([], p).
Proof. intros N. unfold path_split. rewrite split_last_tail by exact N. reflexivity. Qed.

Lemma last_rev (a : text) l r : rev a = l :: r -> last a 0 = l.
Proof.
  intros H. apply (f_equal (@rev Z)) in H. rewrite rev_involutive in H. subst a.
  cbn [rev]. apply last_last.
Qed.

Lemma join_file d name : ~ In slash name -> path_join d name = file_in d name.
Proof.
  intros N. assert (G : match rev d with [] => name | l :: _ => if l =? slash then d ++ name else d ++ slash :: name end
     = file_in d name).
  { unfold file_in. destruct (rev d) as [|l r] eqn:E.
    - apply (f_equal (@rev Z)) in E. rewrite rev_involutive in E. subst d. reflexivity.
    - pose proof (last_rev _ _ _ E) as <-. destruct d; [discriminate E|]. reflexivity. }
  unfold path_join. destruct name as [|c name]; [exact G|].
  destruct (c =? slash) eqn:E; [exfalso; apply N; left; lia|exact G].
Qed.

Lemma split_colon_entries p : entries p (split_colon p).
Proof.
  induction p as [|c r (N & C & E)]; cbn [split_colon].
  - repeat split; [discriminate|]. intros d [<-|[]] [].
  - destruct (c =? colon) eqn:Ec.
    + repeat split; [discriminate| |].
      * intros d [<-|H]; [intros []|apply C; exact H].
      * cbn [intercalate]. destruct (split_colon r) eqn:Er; [congruence|]. rewrite <- E. cbn. f_equal. lia.
    + destruct (split_colon r) as [|x xs] eqn:Er; [congruence|]. repeat split; [discriminate| |].
      * intros d [<-|H]; [|apply C; right; exact H]. intros [H|H]; [lia|]. apply (C x); [left; reflexivity|exact H].
      * rewrite E. destruct xs; reflexivity.
Qed.

(** The entries are determined by the path. *)
Lemma entries_unique p ds : entries p ds -> ds = split_colon p.
Proof.
  revert p. induction ds as [|d ds IH]; intros p (N & C & E); [congruence|].
  assert (S1 : forall d q, ~ In colon d -> split_colon (d ++ colon :: q) = d :: split_colon q).
  { clear. induction d as [|c d IH]; intros q N; cbn [app split_colon]; [reflexivity|].
    assert (c <> colon) by (intros ->; apply N; left; reflexivity).
    replace (c =? colon) with false by lia. rewrite IH; [reflexivity|]. intros H1. apply N. right. exact H1. }
  assert (S0 : forall d, ~ In colon d -> split_colon d = [d]).
  { clear. induction d as [|c d IH]; intros N; cbn [split_colon]; [reflexivity|].
    assert (c <> colon) by (intros ->; apply N; left; reflexivity).
    replace (c =? colon) with false by lia. rewrite IH; [reflexivity|]. intros H1. apply N. right. exact H1. }
  cbn [intercalate] in E. destruct ds as [|d2 ds].
  - subst p. symmetry. apply S0. apply C. left. reflexivity.
  - subst p. cbn [app]. rewrite S1 by (apply C; left; reflexivity). f_equal. apply IH.
    repeat split; [discriminate|]. intros x Hx. apply C. right. exact Hx.
Qed.

Lemma text_eqb_eq a b : text_eqb a b = true <-> a = b.
Proof.
  revert b. induction a as [|x a IH]; intros [|y b]; cbn [text_eqb]; try (split; [discriminate|discriminate]).
  - tauto.
  - rewrite andb_true_iff, IH, Z.eqb_eq. split; [intros [-> ->]; reflexivity|intros H; injection H; auto].
Qed.

Lemma which_loop_spec m name dirs : forall seen,
  (forall d, In d seen -> access m (path_join d name) = false) ->
  (forall p, which_loop m name seen dirs = Some p ->
     exists pre d post, dirs = pre ++ d :: post /\ p = path_join d name /\ access m p = true
     /\ forall d', In d' pre -> access m (path_join d' name) = false)
  /\ (which_loop m name seen dirs = None -> forall d, In d dirs -> access m (path_join d name) = false).
Proof.
  induction dirs as [|d dirs IH]; intros seen S; cbn [which_loop].
  - split; [discriminate|]. intros _ d [].
  - destruct (existsb (text_eqb d) seen) eqn:Ex.
    + assert (D : access m (path_join d name) = false).
      { apply existsb_exists in Ex. destruct Ex as (x & Hx & Ee). apply text_eqb_eq in Ee. subst x. apply S. exact Hx. }
      destruct (IH seen S) as [A B]. split.
      * intros p H. destruct (A p H) as (pre & d0 & post & -> & E1 & E2 & E3).
        exists (d :: pre), d0, post. repeat split; auto. intros d' [<-|H1]; auto.
      * intros H x [<-|Hx]; auto.
    + destruct (access m (path_join d name)) eqn:Ea.
      * split; [|discriminate]. intros p H. injection H as <-. exists [], d, dirs. repeat split; auto. intros d' [].
      * destruct (IH (d :: seen)) as [A B]. { intros x [<-|Hx]; auto. }
        split.
        -- intros p H. destruct (A p H) as (pre & d0 & post & -> & E1 & E2 & E3).
           exists (d :: pre), d0, post. repeat split; auto. intros d' [<-|H1]; auto.
        -- intros H x [<-|Hx]; auto.
Qed.

Lemma which_spec m environ o name dirs : ~ In slash name -> entries (search_path m environ o) dirs ->
  (forall p, options_which m environ o name = Some p -> search_path m environ o <> [] /\ first_file (access m) dirs name p)
  /\ (options_which m environ o name = None ->
      search_path m environ o = [] \/ forall d, In d dirs -> access m (file_in d name) = false).
Proof.
  intros N En. apply entries_unique in En. subst dirs.
  unfold options_which, shutil_which. rewrite split_noslash by exact N.
  replace (match o_path o with Some p => p | None => _ end) with (search_path m environ o) by reflexivity.
  destruct (search_path m environ o) as [|c r] eqn:E.
  - split; [discriminate|]. auto.
  - destruct (which_loop_spec m name (split_colon (c :: r)) []) as [A B]; [intros d []|]. split.
    + intros p H. split; [discriminate|]. destruct (A p H) as (pre & d & post & E1 & E2 & E3 & E4).
      exists pre, d, post. rewrite <- join_file by exact N. repeat split; auto.
      intros d' Hd. rewrite <- join_file by exact N. auto.
    + intros H. right. intros d Hd. rewrite <- join_file by exact N. auto.
Qed.

(** C122, lookup: find_command reports the file of the first entry of the
    search path that has an executable file of that name, and None if there is
    none (or the search path is empty).  The environment given to the command
    by env() and set(env=...) plays no part. *)
Theorem c122_find_command :
  forall m environ ctx name dirs,
  ~ In slash name -> name <> [] -> entries (search_path m environ ctx) dirs ->
  (forall p, find_command m environ ctx name = Some p <->
     search_path m environ ctx <> [] /\ first_file (access m) dirs name p)
  /\ (find_command m environ ctx name = None <->
     search_path m environ ctx = [] \/ forall d, In d dirs -> access m (file_in d name) = false).
Proof.
  intros m environ ctx name dirs N NE En. destruct (which_spec m environ ctx name dirs N En) as [A B].
  assert (NF : forall d, file_in d name <> []).
  { intros d. unfold file_in. destruct d; [exact NE|]. destruct (last _ 0 =? slash); discriminate. }
  assert (Huniq : forall p q, first_file (access m) dirs name p -> first_file (access m) dirs name q -> p = q).
  { intros p q (pre1 & d1 & post1 & E1 & P1 & A1 & F1) (pre2 & d2 & post2 & E2 & P2 & A2 & F2).
    rewrite E1 in E2. clear En A B E1. revert pre2 E2 F2. induction pre1 as [|x pre1 IH]; intros pre2 E2 F2.
    - destruct pre2 as [|y pre2]; cbn [app] in E2; injection E2; intros; subst.
      + reflexivity.
      + exfalso. specialize (F2 y (or_introl eq_refl)). congruence.
    - destruct pre2 as [|y pre2]; cbn [app] in E2; injection E2; intros; subst.
      + exfalso. specialize (F1 d2 (or_introl eq_refl)). congruence.
      + apply (IH ltac:(intros; apply F1; right; assumption) pre2); auto. intros; apply F2; right; assumption. }
  unfold find_command. destruct (options_which m environ ctx name) as [q|] eqn:E.
  - destruct (A q eq_refl) as [NP FF]. assert (q <> []).
    { destruct FF as (pre & d & post & _ & -> & _). apply NF. }
    destruct q as [|z q]; [congruence|]. split.
    + intros p. split; [intros H1; injection H1 as <-; auto|]. intros [_ F]. f_equal. apply Huniq; auto.
    + split; [discriminate|]. intros [H1|H1]; [congruence|].
      destruct FF as (pre & d & post & -> & -> & A1 & _). rewrite H1 in A1; [discriminate|].
      apply in_app_iff. right. left. reflexivity.
  - specialize (B eq_refl). split.
    + intros p. split; [discriminate|]. intros [NP (pre & d & post & -> & -> & A1 & _)].
      destruct B as [B|B]; [congruence|]. rewrite B in A1; [discriminate|].
      apply in_app_iff. right. left. reflexivity.
    + tauto.
Qed.
Print Assumptions c122_find_command.

(** C122, full claim: running a command whose program is a plain name executes
    exactly the file that find_command reports. *)
Definition c122_full_claim : Prop :=
  forall m environ ctx name p,
  ~ In slash name -> name <> [] -> find_command m environ ctx name = Some p ->
  files_tried m environ ctx name = Ok [p].

(** An empty entry of the search path stands for the current directory, and the
    file found there is reported by its bare name, which is looked up once
    more, in the PATH of the new process.  Here path=":/c", PATH is "/b" and
    "a" exists in the current directory and in /b; find_command reports "a",
    and /b/a is run. *)
Theorem c122_refuted : ~ c122_full_claim.
Proof.
  intros C. unfold c122_full_claim in C.
  specialize (C {| access := fun f => text_eqb f [97] || text_eqb f [47; 98; 47; 97]; cs_path := []; defpath := [] |}
    [(path_var, [47; 98])]
    (options_set default_options (mk_kwds (Some (Some [58; 47; 99])) None None None None None None None None None None
     None None None None None None None None None None)) [97] [97]).
  specialize (C ltac:(cbn; intros [H|[]]; discriminate H) ltac:(discriminate) eq_refl).
  vm_compute in C. discriminate C.
Qed.
Print Assumptions c122_refuted.

Lemma file_in_slash d name : d <> [] -> In slash (file_in d name).
Proof.
  intros Hd. unfold file_in. destruct d as [|c d]; [congruence|].
  destruct (last (c :: d) 0 =? slash) eqn:E.
  - apply in_app_iff. left. apply Z.eqb_eq in E. rewrite <- E.
    destruct (@exists_last _ (c :: d) ltac:(discriminate)) as (l & a & ->). rewrite last_last.
    apply in_app_iff. right. left. reflexivity.
  - apply in_app_iff. right. left. reflexivity.
Qed.

(** Missing from the full claim: search paths with an empty entry. *)
Theorem c122_program_partial :
  forall m environ ctx name dirs,
  ~ In slash name -> name <> [] -> entries (search_path m environ ctx) dirs -> ~ In [] dirs ->
  (forall p, find_command m environ ctx name = Some p -> files_tried m environ ctx name = Ok [p])
  /\ (find_command m environ ctx name = None -> files_tried m environ ctx name = Err FileNotFoundError).
Proof.
  intros m environ ctx name dirs N NE En Hd. destruct (which_spec m environ ctx name dirs N En) as [A B].
  assert (DN : dirname name = []) by (apply dirname_nil; exact N).
  unfold files_tried, resolve. rewrite DN. unfold find_command.
  destruct (options_which m environ ctx name) as [q|] eqn:E.
  - destruct (A q eq_refl) as [_ (pre & d & post & Ed & Eq & _)].
    assert (Hs : In slash q). { rewrite Eq. apply file_in_slash. intros ->. apply Hd. rewrite Ed.
      apply in_app_iff. right. left. reflexivity. }
    assert (dirname q <> []). { rewrite dirname_nil. intros H. apply H. exact Hs. }
    split; [|destruct q; [destruct Hs|discriminate]].
    intros p H1. destruct q as [|z q]; [discriminate H1|]. injection H1 as <-. cbn [bind].
    unfold executable_list. destruct (dirname (z :: q)); [congruence|reflexivity].
  - split; [discriminate|]. reflexivity.
Qed.
Print Assumptions c122_program_partial.

(** What happens with an empty entry: the bare name that find_command reports is
    looked up again, in the entries of the PATH that the new process has (the one
    set by env() or set(env=...), else the inherited one, else the system's). *)
Theorem c122_empty_entry :
  forall m environ us args c' name dirs p dirs2,
  args <> [] -> apply_upds (args, default_options) us = Ok c' ->
  ~ In slash name -> name <> [] -> entries (search_path m environ (c_opts c')) dirs ->
  find_command m environ (c_opts c') name = Some p -> ~ In slash p ->
  entries (match var_after us path_var None with
           | Some v => v
           | None => match (if latest (of_set k_inherit_env) us true then env_get environ path_var else None) with
                     | Some v => v
                     | None => defpath m
                     end
           end) dirs2 ->
  p = name /\ In [] dirs /\ files_tried m environ (c_opts c') name = Ok (map (fun d => file_in d name) dirs2).
Proof.
  intros m environ us args c' name dirs p dirs2 Ha E N NE En F NP En2.
  assert (W : options_which m environ (c_opts c') name = Some p).
  { unfold find_command in F. destruct (options_which m environ (c_opts c') name) as [[|]|]; congruence. }
  destruct (which_spec m environ (c_opts c') name dirs N En) as [A _].
  destruct (A p W) as (_ & pre & d & post & Ed & Ep & _).
  assert (d = []). { destruct d as [|x d]; [reflexivity|]. exfalso. apply NP. rewrite Ep. apply file_in_slash. discriminate. }
  subst d. cbn [file_in] in Ep. subst p. split; [reflexivity|].
  split. { rewrite Ed. apply in_app_iff. right. left. reflexivity. }
  unfold files_tried, resolve. rewrite (proj2 (dirname_nil name) N), W. cbn [bind].
  unfold executable_list. rewrite (proj2 (dirname_nil name) N). f_equal.
  assert (G : get_exec_path m environ (runtime_env (c_opts c') environ) = dirs2).
  { apply entries_unique in En2. rewrite En2. unfold get_exec_path. f_equal.
    change (match runtime_env (c_opts c') environ with None => environ | Some e => e end) with (child_env (c_opts c') environ).
    rewrite (c07_child_environment_lemma us args c' environ path_var Ha E).
    destruct (var_after us path_var None); reflexivity. }
  rewrite G. apply map_ext. intros d. apply join_file. exact N.
Qed.
Print Assumptions c122_empty_entry.

(** path=":/c", env(PATH="/b:/d/"): "a" exists in the current directory; the
    files tried are /b/a and /d/a. *)
Example c122_empty_entry_example :
  let m := {| access := fun f => text_eqb f [97]; cs_path := []; defpath := [] |} in
  let us := [USet (mk_kwds (Some (Some [58; 47; 99])) None None None None None None None None None None
     None None None None None None None None None None); UEnv [(path_var, [47; 98; 58; 47; 100; 47])]] in
  exists c', apply_upds ([VStr [97]], default_options) us = Ok c'
  /\ find_command m [] (c_opts c') [97] = Some [97]
  /\ entries [47; 98; 58; 47; 100; 47] [[47; 98]; [47; 100; 47]]
  /\ files_tried m [] (c_opts c') [97] = Ok [[47; 98; 47; 97]; [47; 100; 47; 97]].
Proof.
  cbv zeta. eexists. split; [reflexivity|]. repeat split; try reflexivity; try discriminate.
  intros d [<-|[<-|[]]] H; cbn in H; intuition discriminate.
Qed.

(** A program given with a directory is executed as given, without a search. *)
Theorem c122_with_directory :
  forall m environ ctx name, In slash name -> files_tried m environ ctx name = Ok [name].
Proof.
  intros m environ ctx name H. assert (dirname name <> []). { rewrite dirname_nil. auto. }
  unfold files_tried, resolve, executable_list. destruct (dirname name) eqn:E; [congruence|].
  cbn [bind]. rewrite E. reflexivity.
Qed.
Print Assumptions c122_with_directory.

(** A bare name that nothing provides is refused before anything is started. *)
Theorem c122_not_found :
  forall m environ ctx name dirs, ~ In slash name -> entries (search_path m environ ctx) dirs ->
  (forall d, In d dirs -> access m (file_in d name) = false) ->
  files_tried m environ ctx name = Err FileNotFoundError.
Proof.
  intros m environ ctx name dirs N En H. destruct (which_spec m environ ctx name dirs N En) as [A _].
  unfold files_tried, resolve. rewrite (proj2 (dirname_nil name) N).
  destruct (options_which m environ ctx name) as [q|] eqn:E; [|reflexivity].
  destruct (A q eq_refl) as [_ (pre & d & post & -> & -> & A1 & _)].
  rewrite H in A1; [discriminate A1|]. apply in_app_iff. right. left. reflexivity.
Qed.
Print Assumptions c122_not_found.

(** path="/b:/c/" and only /c/a exists; the PATH given to the command by env()
    names another directory that has an "a". *)
Example c122_example :
  let m := {| access := fun f => text_eqb f [47; 99; 47; 97] || text_eqb f [47; 100; 47; 97];
              cs_path := [47; 98]; defpath := [47; 98] |} in
  let ctx := add_env (options_set default_options (mk_kwds (Some (Some [47; 98; 58; 47; 99; 47]))
     None None None None None None None None None None
     None None None None None None None None None None)) [(path_var, [47; 100])] in
  entries (search_path m [] ctx) [[47; 98]; [47; 99; 47]]
  /\ find_command m [] ctx [97] = Some [47; 99; 47; 97]
  /\ files_tried m [] ctx [97] = Ok [[47; 99; 47; 97]]
  /\ files_tried m [] ctx [98] = Err FileNotFoundError.
Proof.
  cbv zeta. repeat split; try reflexivity; try discriminate.
  intros d [<-|[<-|[]]] H; cbn in H; intuition discriminate.
Qed.

(** The descriptor model of C42-C44 and C118 leaves the lookup open; in a world
    whose lookup is this one, entering the run gives the new process the
    resolved program, and fails if there is none. *)
Definition lookup_world (m : machine) (environ : envdict) (w : RunOptionsModel.world) : Prop :=
  forall o name,
    RunOptionsModel.w_no_dirname w (VStr name) = match dirname name with [] => true | _ => false end
    /\ RunOptionsModel.w_which w o (VStr name) = option_map VStr (options_which m environ o name).

Lemma mbind_ok {A B} (m : RunOptionsModel.M A) (k : A -> RunOptionsModel.M B) s s' x :
  RunOptionsModel.mbind m k s = (s', Ok x) -> exists s1 y, m s = (s1, Ok y) /\ k y s1 = (s', Ok x).
Proof.
  unfold RunOptionsModel.mbind. destruct (m s) as [s1 [y|e]]; [|discriminate]. intros H. eauto.
Qed.

Theorem c122_enter :
  forall m environ w c name rest s s' r,
  lookup_world m environ w -> c_args c = VStr name :: rest ->
  RunOptionsModel.enter w c s = (s', r) ->
  (forall pos hs, r = Ok (pos, hs) ->
     exists exe rest', pos = VStr exe :: rest' /\ resolve m environ (c_opts c) name = Ok exe)
  /\ (forall e, resolve m environ (c_opts c) name = Err e -> exists e', r = Err e').
Proof.
  intros m environ w c name rest s s' r L Ea H.
  assert (Body : forall s1 pos hs, RunOptionsModel.enter_body w c s = (s1, Ok (pos, hs)) ->
     exists exe rest', pos = VStr exe :: rest' /\ resolve m environ (c_opts c) name = Ok exe).
  { intros s1 pos hs B. unfold RunOptionsModel.enter_body in B.
    apply mbind_ok in B. destruct B as (s2 & args & E1 & B).
    apply mbind_ok in B. destruct B as (s3 & hs' & E2 & B).
    apply mbind_ok in B. destruct B as (s4 & [] & E3 & B).
    assert (A : exists rest1, args = VStr name :: rest1).
    { destruct (RunOptionsModel.uses_process_substitution c).
      - unfold RunOptionsModel.setup_process_substitution in E1. rewrite Ea in E1.
        apply mbind_ok in E1. destruct E1 as (t1 & [a fds] & F1 & E1).
        apply mbind_ok in E1. destruct E1 as (t2 & [] & F2 & E1).
        apply mbind_ok in E1. destruct E1 as (t3 & [] & F3 & E1).
        cbn [RunOptionsModel.procsub_loop RunOptionsModel.is_substitution] in F1.
        apply mbind_ok in F1. destruct F1 as (t4 & [a' fds'] & F4 & F1).
        unfold RunOptionsModel.ret in *. injection F1 as _ <- <-. injection E1 as _ <-. cbn [fst]. eauto.
      - unfold RunOptionsModel.ret in E1. injection E1 as _ <-. rewrite Ea. eauto. }
    destruct A as (rest1 & ->). destruct (L (c_opts c) name) as [L1 L2]. rewrite L1, L2 in B.
    unfold resolve. destruct (dirname name).
    - destruct (options_which m environ (c_opts c) name) as [f|]; cbn [option_map] in B; [|discriminate B].
      unfold RunOptionsModel.ret in B. injection B as _ <- _. eauto.
    - unfold RunOptionsModel.ret in B. injection B as _ <- _. eauto. }
  unfold RunOptionsModel.enter in H.
  destruct (RunOptionsModel.enter_body w c s) as [s1 [[pos hs]|e]]; injection H as <- <-.
  - destruct (Body s1 pos hs eq_refl) as (exe & rest' & E1 & E2). split.
    + intros pos0 hs0 H0. injection H0 as <- <-. eauto.
    + intros e He. congruence.
  - split; [discriminate|]. eauto.
Qed.
Print Assumptions c122_enter.

Example c122_enter_example :
  let m := {| access := fun f => text_eqb f [47; 99; 47; 97]; cs_path := [47; 98]; defpath := [47; 98] |} in
  let environ := [(path_var, [47; 98; 58; 47; 99])] in
  let w := {| RunOptionsModel.w_ok := fun _ => true; RunOptionsModel.w_same_std := false;
    RunOptionsModel.w_bsd := false; RunOptionsModel.w_encode := fun _ t => Some t;
    RunOptionsModel.w_no_dirname := fun v => match v with VStr s => match dirname s with [] => true | _ => false end | _ => true end;
    RunOptionsModel.w_which := fun o v => match v with VStr s => option_map VStr (options_which m environ o s) | _ => None end;
    RunOptionsModel.w_dev_fd := fun fd => [fd] |} in
  lookup_world m environ w
  /\ exists s' hs, RunOptionsModel.enter w ([VStr [97]; VCmd [VStr [98]] default_options], default_options)
       (RunOptionsModel.init_rst 20)
     = (s', Ok ([VStr [47; 99; 47; 97]; VStr [20]], hs)).
Proof.
  cbv zeta. split; [intros o name; split; reflexivity|]. eexists. eexists. vm_compute. reflexivity.
Qed.
