From Verif Require Import CommandModel CommandSpec.
Open Scope Z_scope.

(** * coerce *)

Section VInd.
  Variable P : value -> Prop.
  Hypothesis Hseq : forall k items, Forall P items -> P (VSeq k items).
  Hypothesis Hleaf : forall v, (forall k items, v <> VSeq k items) -> P v.
  Fixpoint value_seq_ind (v : value) : P v.
  Proof.
    destruct v; try (apply Hleaf; intros; discriminate).
    apply Hseq. induction items as [|x items IH].
    - constructor.
    - constructor; [apply value_seq_ind | exact IH].
  Defined.
End VInd.

Fixpoint coerce_items (pystr : value -> text) (l : list value) : res (list value) :=
  match l with
  | [] => Ok []
  | x :: l' => bind (coerce_one pystr x) (fun a => bind (coerce_items pystr l') (fun b => Ok (a ++ b)))
  end.

Lemma coerce_one_seq pystr k items : coerce_one pystr (VSeq k items) = coerce_items pystr items.
Proof. cbn [coerce_one]. induction items as [|x l IH]; [reflexivity|]. cbn [coerce_items]. rewrite <- IH. reflexivity. Qed.

(** Specification of one loop iteration as a function of the leaves. *)
Fixpoint scan (pystr : value -> text) (ls : list value) : res (list value) :=
  match ls with
  | [] => Ok []
  | v :: r => match refused v with
              | Some n => Err (TypeError n)
              | None => bind (scan pystr r) (fun b => Ok (contribution pystr v :: b))
              end
  end.

Lemma scan_app pystr a b :
  scan pystr (a ++ b) = bind (scan pystr a) (fun x => bind (scan pystr b) (fun y => Ok (x ++ y))).
Proof.
  induction a as [|v a IH]; cbn [scan app bind].
  - destruct (scan pystr b); reflexivity.
  - destruct (refused v); [reflexivity|]. rewrite IH.
    destruct (scan pystr a); cbn [bind]; [|reflexivity].
    destruct (scan pystr b); reflexivity.
Qed.

Lemma coerce_one_scan pystr v : coerce_one pystr v = scan pystr (leaves v).
Proof.
  induction v as [k items IH|v Hv] using value_seq_ind.
  - rewrite coerce_one_seq. cbn [leaves].
    induction IH as [|x l Hx Hl IHl]; cbn [coerce_items flat_map]; [reflexivity|].
    rewrite scan_app, <- Hx, IHl. reflexivity.
  - destruct v; try reflexivity. exfalso. eapply Hv; reflexivity.
Qed.

Lemma coerce_none_scan pystr St cf args (st : St) :
  coerce pystr St cf None args st = (st, scan pystr (flat_map leaves args)).
Proof.
  induction args as [|a args IH]; cbn [coerce flat_map]; [reflexivity|].
  rewrite scan_app, coerce_one_scan.
  destruct (scan pystr (leaves a)); [|reflexivity]. rewrite IH. reflexivity.
Qed.

Lemma scan_ok pystr ls out :
  scan pystr ls = Ok out <-> Forall (fun v => refused v = None) ls /\ out = map (contribution pystr) ls.
Proof.
  revert out; induction ls as [|v ls IH]; intro out; cbn [scan map].
  - split; [intro H; inversion H; split; auto | intros [_ ->]; reflexivity].
  - destruct (refused v) eqn:E.
    + split; [discriminate|]. intros [HF _]. inversion HF; congruence.
    + destruct (scan pystr ls) as [b|e] eqn:S; cbn [bind].
      * assert (S' : Ok b = Ok b) by reflexivity. apply IH in S'. destruct S' as [S1 S2].
        split.
        -- intro H; inversion H; subst. split; [constructor; auto | reflexivity].
        -- intros [HF ->]. now rewrite S2.
      * split; [discriminate|]. intros [HF ->]. inversion HF; subst.
        specialize (IH (map (contribution pystr) ls)). destruct IH as [_ IH].
        discriminate IH. split; auto.
Qed.

Lemma scan_err pystr ls e :
  scan pystr ls = Err e <->
  exists pre bad post n, ls = pre ++ bad :: post /\ Forall (fun v => refused v = None) pre
    /\ refused bad = Some n /\ e = TypeError n.
Proof.
  revert e; induction ls as [|v ls IH]; intro e; cbn [scan].
  - split; [discriminate|]. intros (pre & bad & post & n & H & _). destruct pre; discriminate.
  - destruct (refused v) as [n|] eqn:E.
    + split.
      * intro H; inversion H; subst. exists [], v, ls, n. auto.
      * intros (pre & bad & post & m & H & HF & Hb & ->).
        destruct pre as [|p pre]; inversion H; subst; [congruence|].
        inversion HF; congruence.
    + destruct (scan pystr ls) as [b|e'] eqn:S; cbn [bind].
      * split; [discriminate|]. intros (pre & bad & post & m & H & HF & Hb & ->).
        destruct pre as [|p pre]; inversion H; subst; [congruence|].
        destruct (IH (TypeError m)) as [_ IH']. discriminate IH'.
        exists pre, bad, post, m. inversion HF; auto.
      * split.
        -- intro H; inversion H; subst. destruct (IH e) as [IH' _].
           destruct (IH' eq_refl) as (pre & bad & post & n & -> & HF & Hb & ->).
           exists (v :: pre), bad, post, n. repeat split; auto.
        -- intros (pre & bad & post & m & H & HF & Hb & ->).
           destruct pre as [|p pre]; inversion H; subst; [congruence|].
           destruct (IH (TypeError m)) as [_ IH']. apply IH'.
           exists pre, bad, post, m. inversion HF; auto.
Qed.

Lemma ctx_call_ok pystr St cf ctx args (st st' : St) c :
  o_coerce_arg ctx = None ->
  (ctx_call pystr St cf ctx args st = (st', Ok c) <->
   st' = st /\ Forall (fun v => refused v = None) (flat_map leaves args)
   /\ flat_map leaves args <> []
   /\ c = (map (contribution pystr) (flat_map leaves args), ctx)).
Proof.
  intro Hc. unfold ctx_call. rewrite Hc, coerce_none_scan.
  set (ls := flat_map leaves args).
  destruct (scan pystr ls) as [out|e] eqn:S; cbn [bind].
  - apply scan_ok in S. destruct S as [S1 ->].
    destruct ls as [|v ls']; cbn [map mk_command].
    + split; [intro H; inversion H | intros (_ & _ & H & _); congruence].
    + split.
      * intro H; inversion H; subst. repeat split; auto. discriminate.
      * intros (-> & _ & _ & ->). reflexivity.
  - split; [intro H; inversion H|]. intros (_ & HF & _ & _).
    assert (scan pystr ls = Ok (map (contribution pystr) ls)) by (apply scan_ok; auto). congruence.
Qed.

Lemma ctx_call_type_error pystr St cf ctx args (st st' : St) m :
  o_coerce_arg ctx = None ->
  (ctx_call pystr St cf ctx args st = (st', Err (TypeError m)) <->
   st' = st /\ exists pre bad post, flat_map leaves args = pre ++ bad :: post
     /\ Forall (fun v => refused v = None) pre /\ refused bad = Some m).
Proof.
  intro Hc. unfold ctx_call. rewrite Hc, coerce_none_scan.
  set (ls := flat_map leaves args).
  destruct (scan pystr ls) as [out|e] eqn:S; cbn [bind].
  - assert (Hno : ~ exists pre bad post, ls = pre ++ bad :: post
        /\ Forall (fun v => refused v = None) pre /\ refused bad = Some m).
    { intros (pre & bad & post & H1 & H2 & H3).
      assert (X : scan pystr ls = Err (TypeError m)) by (apply scan_err; exists pre, bad, post, m; auto).
      congruence. }
    split; [|intros [_ H]; contradiction].
    destruct out; cbn [mk_command]; intro H; inversion H.
  - split.
    + intro H; inversion H; subst. apply scan_err in S.
      destruct S as (pre & bad & post & n & H1 & H2 & H3 & H4). inversion H4; subst.
      split; auto. exists pre, bad, post. auto.
    + intros [-> (pre & bad & post & H1 & H2 & H3)].
      assert (X : scan pystr ls = Err (TypeError m)) by (apply scan_err; exists pre, bad, post, m; auto).
      congruence.
Qed.

(** ** coerce_arg *)

Lemma coerce_some_call_each pystr St cf f args : forall (st st' : St) r,
  coerce pystr St cf (Some f) args st = (st', r) ->
  (forall out, r = Ok out ->
     exists args', call_each (cf f) args st = (st', Ok args')
       /\ coerce pystr St cf None args' st' = (st', Ok out))
  /\ (forall e, r = Err e ->
     exists pre rest args' , args = pre ++ rest
       /\ ((call_each (cf f) pre st = (st', Err e) /\ args' = [])
           \/ (call_each (cf f) pre st = (st', Ok args')
               /\ coerce pystr St cf None args' st' = (st', Err e)))).
Proof.
  induction args as [|a args IH]; intros st st' r H; cbn [coerce] in H.
  - inversion H; subst; clear H. split.
    + intros out E; inversion E; subst. exists []. auto.
    + intros e E; discriminate.
  - destruct (cf f a st) as [st1 r1] eqn:C. destruct r1 as [a'|e1].
    + destruct (coerce_one pystr a') as [x|e2] eqn:CO.
      * destruct (coerce pystr St cf (Some f) args st1) as [st2 r2] eqn:CR.
        inversion H; subst; clear H. specialize (IH _ _ _ CR). destruct IH as [IHok IHerr].
        split.
        -- intros out E. destruct r2 as [b|]; cbn [bind] in E; inversion E; subst; clear E.
           destruct (IHok b eq_refl) as (args' & H1 & H2).
           exists (a' :: args'). cbn [call_each]. rewrite C, H1. split; [reflexivity|].
           cbn [coerce]. rewrite CO, H2. reflexivity.
        -- intros e E. destruct r2 as [b|]; cbn [bind] in E; inversion E; subst; clear E.
           destruct (IHerr e eq_refl) as (pre & rest & args' & -> & Hd).
           destruct Hd as [[H1 ->]|[H1 H2]].
           ++ exists (a :: pre), rest, []. split; [reflexivity|]. left. cbn [call_each].
              rewrite C, H1. auto.
           ++ exists (a :: pre), rest, (a' :: args'). split; [reflexivity|]. right.
              cbn [call_each]. rewrite C, H1. split; [reflexivity|].
              cbn [coerce]. rewrite CO, H2. reflexivity.
      * inversion H; subst; clear H. split; [discriminate|].
        intros e E; inversion E; subst. exists [a], args, [a']. split; [reflexivity|]. right.
        cbn [call_each]. rewrite C. split; [reflexivity|]. cbn [coerce]. rewrite CO. reflexivity.
    + inversion H; subst; clear H. split; [discriminate|].
      intros e E; inversion E; subst. exists [a], args, []. split; [reflexivity|]. left.
      cbn [call_each]. rewrite C. auto.
Qed.

Lemma coerce_some_complete pystr St cf f args : forall (st st' : St) args' out,
  call_each (cf f) args st = (st', Ok args') ->
  coerce pystr St cf None args' st' = (st', Ok out) ->
  coerce pystr St cf (Some f) args st = (st', Ok out).
Proof.
  induction args as [|a args IH]; intros st st' args' out H1 H2; cbn [call_each] in H1.
  - inversion H1; subst. cbn in H2. inversion H2. reflexivity.
  - cbn [coerce]. destruct (cf f a st) as [st1 [a'|e]]; [|inversion H1].
    destruct (call_each (cf f) args st1) as [st2 [ys|e]] eqn:E; inversion H1; subst; clear H1.
    cbn [coerce] in H2. destruct (coerce_one pystr a') as [x|]; [|inversion H2].
    rewrite coerce_none_scan in H2.
    destruct (scan pystr (flat_map leaves ys)) as [b|] eqn:S; cbn [bind] in H2; inversion H2; subst.
    rewrite (IH _ _ _ b E); [reflexivity|]. rewrite coerce_none_scan, S. reflexivity.
Qed.

(** ** partial application *)

Lemma coerce_app pystr St cf fo a b (st : St) :
  coerce pystr St cf fo (a ++ b) st =
  (let (st1, r) := coerce pystr St cf fo a st in
   match r with
   | Err e => (st1, Err e)
   | Ok x => let (st2, r2) := coerce pystr St cf fo b st1 in (st2, bind r2 (fun y => Ok (x ++ y)))
   end).
Proof.
  revert st; induction a as [|v a IH]; intro st; cbn [coerce app].
  - destruct (coerce pystr St cf fo b st) as [st2 [y|]]; reflexivity.
  - destruct (match fo with Some f => cf f v st | None => (st, Ok v) end) as [st1 [v'|e]]; [|reflexivity].
    destruct (coerce_one pystr v') as [x|]; [|reflexivity].
    rewrite IH. destruct (coerce pystr St cf fo a st1) as [st2 [y|]]; cbn [bind]; [|reflexivity].
    destruct (coerce pystr St cf fo b st2) as [st3 [z|]]; cbn [bind]; [|reflexivity].
    now rewrite app_assoc.
Qed.

Lemma call_call pystr St cf ctx a b (st st1 : St) c :
  ctx_call pystr St cf ctx a st = (st1, Ok c) ->
  cmd_call pystr St cf c b st1 = ctx_call pystr St cf ctx (a ++ b) st.
Proof.
  unfold ctx_call. intro H. rewrite coerce_app.
  destruct (coerce pystr St cf (o_coerce_arg ctx) a st) as [st1' [x|]]; cbn [bind] in H; [|inversion H].
  destruct x as [|x0 x]; cbn [mk_command] in H; inversion H; subst; clear H.
  unfold cmd_call. cbn [c_opts c_args fst snd].
  destruct b as [|b0 b].
  - cbn [coerce bind]. rewrite app_nil_r. reflexivity.
  - destruct (coerce pystr St cf (o_coerce_arg ctx) (b0 :: b) st1) as [st2 [y|]]; reflexivity.
Qed.

Lemma mk_command_ok args o c : mk_command args o = Ok c -> c = (args, o) /\ args <> [].
Proof. destruct args; cbn; intro H; inversion H. split; [reflexivity|discriminate]. Qed.

Lemma ctx_call_nonempty pystr St cf ctx a (st st1 : St) c :
  ctx_call pystr St cf ctx a st = (st1, Ok c) -> c_args c <> [] /\ c_opts c = ctx.
Proof.
  unfold ctx_call. destruct (coerce _ _ _ _ _ _) as [s [x|]]; cbn [bind]; intro H; inversion H.
  match goal with H : mk_command _ _ = _ |- _ => apply mk_command_ok in H; destruct H as [-> ?] end.
  split; auto.
Qed.

Lemma cmd_call_nonempty pystr St cf c b (st st1 : St) c' :
  c_args c <> [] -> cmd_call pystr St cf c b st = (st1, Ok c') ->
  c_args c' <> [] /\ c_opts c' = c_opts c.
Proof.
  intros Hc. unfold cmd_call. destruct b as [|b0 b].
  - intro H; inversion H; subst; auto.
  - destruct (coerce _ _ _ _ _ _) as [s [x|]]; cbn [bind]; intro H; inversion H.
    match goal with H : mk_command _ _ = _ |- _ => apply mk_command_ok in H; destruct H as [-> ?] end.
    split; auto.
Qed.

(** * updates *)

Lemma latest_nil {A} (f : upd -> option A) i : latest f [] i = i.
Proof. reflexivity. Qed.
Lemma latest_cons {A} (f : upd -> option A) u us i :
  latest f (u :: us) i = latest f us (match f u with Some a => a | None => i end).
Proof.
  unfold latest. cbn [rev]. rewrite flat_map_app. cbn [flat_map].
  destruct (flat_map _ (rev us)) as [|a r]; cbn [app].
  - destruct (f u); reflexivity.
  - reflexivity.
Qed.

Lemma eq_redirect_is_stdout v : eq_redirect v STDOUT = is_stdout v.
Proof. destruct v; try reflexivity. destruct r; reflexivity. Qed.

Lemma follows_nil o : follows_history [] o o.
Proof. constructor; reflexivity. Qed.

Lemma follows_step u us o o1 o2 :
  follows_history [u] o o1 -> follows_history us o1 o2 -> follows_history (u :: us) o o2.
Proof.
  intros [] []. constructor; rewrite latest_cons;
  repeat match goal with H : _ = latest _ [u] _ |- _ => rewrite latest_cons, latest_nil in H end;
  congruence.
Qed.

Lemma set_stdin_ok o v c : 
  (negb (is_none v) && negb (is_stdout v) = true) ->
  exists o', set_stdin o v c = Ok o' /\ follows_history [UStdin v c] o o' /\ o_env o' = o_env o.
Proof.
  intro H. apply andb_true_iff in H. destruct H as [H1 H2].
  unfold set_stdin. rewrite eq_redirect_is_stdout.
  apply negb_true_iff in H2. rewrite H2.
  destruct v; try discriminate H1; (eexists; split; [reflexivity|]; split; [constructor; reflexivity | reflexivity]).
Qed.
Lemma set_stdin_err o v c :
  (negb (is_none v) && negb (is_stdout v) = false) -> exists e, set_stdin o v c = Err e.
Proof.
  intro H. unfold set_stdin. rewrite eq_redirect_is_stdout.
  destruct v; cbn [is_none negb andb] in H; try (apply negb_false_iff in H; rewrite H); eauto.
Qed.
Lemma set_stdout_ok o v a c : 
  (negb (is_none v) && negb (is_stdout v) = true) ->
  exists o', set_stdout o v a c = Ok o' /\ follows_history [UStdout v a c] o o' /\ o_env o' = o_env o.
Proof.
  intro H. apply andb_true_iff in H. destruct H as [H1 H2].
  unfold set_stdout. rewrite eq_redirect_is_stdout.
  apply negb_true_iff in H2. rewrite H2.
  destruct v; try discriminate H1; (eexists; split; [reflexivity|]; split; [constructor; reflexivity | reflexivity]).
Qed.
Lemma set_stdout_err o v a c :
  (negb (is_none v) && negb (is_stdout v) = false) -> exists e, set_stdout o v a c = Err e.
Proof.
  intro H. unfold set_stdout. rewrite eq_redirect_is_stdout.
  destruct v; cbn [is_none negb andb] in H; try (apply negb_false_iff in H; rewrite H); eauto.
Qed.
Lemma set_stderr_ok o v a c : 
  negb (is_none v) = true ->
  exists o', set_stderr o v a c = Ok o' /\ follows_history [UStderr v a c] o o' /\ o_env o' = o_env o.
Proof.
  intro H. unfold set_stderr.
  destruct v; try discriminate H; (eexists; split; [reflexivity|]; split; [constructor; reflexivity | reflexivity]).
Qed.
Lemma set_stderr_err o v a c :
  negb (is_none v) = false -> exists e, set_stderr o v a c = Err e.
Proof. intro H. destruct v; try discriminate H; cbn; eauto. Qed.

Lemma options_set_follows o k : follows_history [USet k] o (options_set o k).
Proof. constructor; rewrite latest_cons, latest_nil; reflexivity. Qed.

Lemma apply_upd_ok c u : c_args c <> [] -> valid_upd u = true ->
  exists o', apply_upd c u = Ok (c_args c, o') /\ follows_history [u] (c_opts c) o'.
Proof.
  intros Hc Hv. destruct c as [args o]. cbn [c_args c_opts fst snd] in *.
  assert (Hm : forall o', mk_command args o' = Ok (args, o')) by (destruct args; [congruence|reflexivity]).
  destruct u; cbn [valid_upd] in Hv; cbn [apply_upd]; unfold cmd_stdin, cmd_stdout, cmd_stderr, cmd_env, cmd_set;
  cbn [c_args c_opts fst snd].
  - destruct (set_stdin_ok o v close Hv) as (o' & -> & H & _). cbn [bind]. eauto.
  - destruct (set_stdout_ok o v append close Hv) as (o' & -> & H & _). cbn [bind]. eauto.
  - destruct (set_stderr_ok o v append close Hv) as (o' & -> & H & _). cbn [bind]. eauto.
  - eexists. rewrite Hm. split; [reflexivity|]. constructor; reflexivity.
  - unfold ctx_set. destruct (k_encoding k) as [[|x e]|] eqn:E; [discriminate| |];
    cbn [bind]; rewrite Hm; eexists; (split; [reflexivity|apply options_set_follows]).
Qed.

Lemma apply_upd_err c u : valid_upd u = false -> exists e, apply_upd c u = Err e.
Proof.
  intros Hv. destruct c as [args o].
  destruct u; cbn [valid_upd] in Hv; cbn [apply_upd]; unfold cmd_stdin, cmd_stdout, cmd_stderr, cmd_env, cmd_set;
  cbn [c_args c_opts fst snd].
  - destruct (set_stdin_err o v close Hv) as (e & ->). cbn. eauto.
  - destruct (set_stdout_err o v append close Hv) as (e & ->). cbn; eauto.
  - destruct (set_stderr_err o v append close Hv) as (e & ->). cbn; eauto.
  - discriminate.
  - unfold ctx_set. destruct (k_encoding k) as [[|x e]|]; try discriminate. cbn; eauto.
Qed.

Lemma apply_upds_history us : forall c, c_args c <> [] ->
  (forallb valid_upd us = true ->
     exists o', apply_upds c us = Ok (c_args c, o') /\ follows_history us (c_opts c) o')
  /\ (forallb valid_upd us = false -> exists e, apply_upds c us = Err e).
Proof.
  induction us as [|u us IH]; intros c Hc; cbn [forallb apply_upds].
  - split; [|discriminate]. intros _. destruct c as [a o]. exists o. split; [reflexivity|apply follows_nil].
  - destruct (valid_upd u) eqn:V; cbn [andb].
    + destruct (apply_upd_ok c u Hc V) as (o1 & -> & F1). cbn [bind].
      destruct (IH (c_args c, o1) Hc) as [IH1 IH2]. split.
      * intro H. destruct (IH1 H) as (o' & -> & F2). exists o'. split; [reflexivity|].
        eapply follows_step; eauto.
      * exact IH2.
    + destruct (apply_upd_err c u V) as (e & ->). split; [discriminate|]. cbn. eauto.
Qed.

(** * environment *)

Lemma env_get_put d k v k' :
  env_get (env_put d k v) k' = if text_eqb k' k then Some v else env_get d k'.
Proof.
  induction d as [|[k0 v0] d IH]; cbn [env_put env_get].
  - reflexivity.
  - destruct (text_eqb k k0) eqn:E.
    + apply text_eqb_eq in E; subst k0. cbn [env_get].
      destruct (text_eqb k' k); reflexivity.
    + cbn [env_get]. rewrite IH. destruct (text_eqb k' k0) eqn:E2; [|reflexivity].
      destruct (text_eqb k' k) eqn:E3; [|reflexivity].
      apply text_eqb_eq in E2. apply text_eqb_eq in E3. subst. rewrite text_eqb_refl in E. discriminate.
Qed.

Lemma text_eqb_sym a b : text_eqb a b = text_eqb b a.
Proof.
  destruct (text_eqb a b) eqn:E.
  - apply text_eqb_eq in E. subst. now rewrite text_eqb_refl.
  - destruct (text_eqb b a) eqn:E2; [|reflexivity]. apply text_eqb_eq in E2. subst. now rewrite text_eqb_refl in E.
Qed.

Lemma binding_cons k v d k' :
  binding ((k, v) :: d) k' =
  match binding d k' with Some x => Some x | None => if text_eqb k' k then Some v else None end.
Proof.
  unfold binding. cbn [rev]. rewrite filter_app.
  destruct (filter _ (rev d)) as [|[a b] r]; cbn [app filter fst].
  - rewrite text_eqb_sym. destruct (text_eqb k' k); reflexivity.
  - reflexivity.
Qed.

Lemma env_get_update u : forall d k,
  env_get (env_update d u) k = match binding u k with Some v => Some v | None => env_get d k end.
Proof.
  unfold env_update. induction u as [|[k0 v0] u IH]; intros d k; cbn [fold_left].
  - reflexivity.
  - rewrite IH, binding_cons, env_get_put. cbn [fst snd].
    destruct (binding u k); [reflexivity|]. destruct (text_eqb k k0); reflexivity.
Qed.

Lemma env_put_keys d k v x : In x (keys (env_put d k v)) <-> x = k \/ In x (keys d).
Proof.
  induction d as [|[k0 v0] d IH]; cbn [env_put keys map In].
  - simpl. firstorder.
  - destruct (text_eqb k k0) eqn:E.
    + apply text_eqb_eq in E; subst. simpl. firstorder.
    + cbn [map fst In]. unfold keys in IH. rewrite IH. simpl. firstorder.
Qed.
Lemma env_put_nodup d k v : NoDup (keys d) -> NoDup (keys (env_put d k v)).
Proof.
  induction d as [|[k0 v0] d IH]; cbn [env_put keys map]; intro H.
  - constructor; [simpl; tauto | constructor].
  - inversion H; subst. destruct (text_eqb k k0) eqn:E.
    + constructor; assumption.
    + cbn [map fst]. constructor; [|apply IH; assumption].
      intro Hin. apply env_put_keys in Hin. destruct Hin as [->|Hin]; [|contradiction].
      rewrite text_eqb_refl in E. discriminate.
Qed.
Lemma env_update_nodup u : forall d, NoDup (keys d) -> NoDup (keys (env_update d u)).
Proof.
  unfold env_update; induction u as [|[k v] u IH]; intros d H; cbn [fold_left]; [assumption|].
  apply IH. apply env_put_nodup. assumption.
Qed.

Lemma apply_upd_env c u c' :
  c_args c <> [] -> wf_env (c_opts c) -> apply_upd c u = Ok c' ->
  wf_env (c_opts c') /\ c_args c' = c_args c /\
  forall k, own_var (c_opts c') k =
            match env_aspect k u with Some x => x | None => own_var (c_opts c) k end.
Proof.
  destruct c as [args o]; intros Hc Hw H.
  assert (Hm : forall o', mk_command args o' = Ok (args, o'))
    by (destruct args; [cbn in Hc; congruence|reflexivity]).
  destruct u; cbn [apply_upd] in H; unfold cmd_stdin, cmd_stdout, cmd_stderr, cmd_env, cmd_set in H;
  cbn [c_args c_opts fst snd] in *.
  - destruct (negb (is_none v) && negb (is_stdout v)) eqn:V.
    + destruct (set_stdin_ok o v close V) as (o' & E & _ & E2). rewrite E in H. cbn [bind] in H.
      rewrite Hm in H. inversion H; subst. cbn. unfold wf_env, own_var in *. rewrite E2. auto.
    + destruct (set_stdin_err o v close V) as (e & E). rewrite E in H. discriminate.
  - destruct (negb (is_none v) && negb (is_stdout v)) eqn:V.
    + destruct (set_stdout_ok o v append close V) as (o' & E & _ & E2). rewrite E in H. cbn [bind] in H.
      rewrite Hm in H. inversion H; subst. cbn. unfold wf_env, own_var in *. rewrite E2. auto.
    + destruct (set_stdout_err o v append close V) as (e & E). rewrite E in H. discriminate.
  - destruct (negb (is_none v)) eqn:V.
    + destruct (set_stderr_ok o v append close V) as (o' & E & _ & E2). rewrite E in H. cbn [bind] in H.
      rewrite Hm in H. inversion H; subst. cbn. unfold wf_env, own_var in *. rewrite E2. auto.
    + destruct (set_stderr_err o v append close V) as (e & E). rewrite E in H. discriminate.
  - rewrite Hm in H. inversion H; subst. cbn [c_opts snd fst c_args].
    unfold wf_env, own_var, add_env, with_env, mk_env in *. cbn [o_env].
    split; [|split; [reflexivity|]].
    + destruct (o_env o); apply env_update_nodup; [assumption|constructor].
    + intro k. cbn [env_aspect].
      destruct (o_env o); rewrite env_get_update; destruct (binding u k); reflexivity.
  - unfold ctx_set in H.
    assert (H' : c' = (args, options_set o k)).
    { destruct (k_encoding k) as [[|? ?]|]; cbn [bind] in H; [discriminate| |];
      rewrite Hm in H; inversion H; reflexivity. }
    subst c'. clear H. cbn [c_opts snd fst c_args].
    unfold wf_env, own_var, options_set, mk_env in *. cbn [o_env].
    split; [|split; [reflexivity|]].
    + destruct (k_env k) as [[|kv r]|]; auto. apply env_update_nodup. constructor.
    + intro key. cbn [env_aspect]. destruct (k_env k) as [[|kv r]|].
      * reflexivity.
      * rewrite env_get_update. destruct (binding (kv :: r) key); reflexivity.
      * reflexivity.
Qed.

Lemma apply_upds_env us : forall c c', c_args c <> [] -> wf_env (c_opts c) -> apply_upds c us = Ok c' ->
  wf_env (c_opts c') /\ forall k, own_var (c_opts c') k = var_after us k (own_var (c_opts c) k).
Proof.
  unfold var_after. induction us as [|u us IH]; intros c c' Hc Hw H; cbn [apply_upds] in H.
  - inversion H; subst. split; auto.
  - destruct (apply_upd c u) as [c1|] eqn:E; cbn [bind] in H; [|discriminate].
    destruct (apply_upd_env _ _ _ Hc Hw E) as (Hw1 & Ha1 & Hv1).
    assert (Hc1 : c_args c1 <> []) by congruence.
    destruct (IH _ _ Hc1 Hw1 H) as (Hw2 & Hv2). split; [assumption|].
    intro k. rewrite Hv2, latest_cons, Hv1. reflexivity.
Qed.

Lemma binding_unique d k : NoDup (keys d) -> binding d k = env_get d k.
Proof.
  induction d as [|[k0 v0] d IH]; intro H; [reflexivity|].
  rewrite binding_cons. cbn [env_get]. inversion H; subst. rewrite IH by assumption.
  destruct (text_eqb k k0) eqn:E.
  - apply text_eqb_eq in E; subst k0.
    assert (X : env_get d k = None).
    { clear -H2. induction d as [|[a b] d IH]; [reflexivity|]. cbn [env_get].
      destruct (text_eqb k a) eqn:E.
      - apply text_eqb_eq in E; subst. exfalso. apply H2. left. reflexivity.
      - apply IH. intro Hin. apply H2. right. exact Hin. }
    rewrite X. reflexivity.
  - destruct (env_get d k); reflexivity.
Qed.

Lemma child_env_lookup o environ k : wf_env o ->
  env_get (child_env o environ) k =
  match own_var o k with
  | Some v => Some v
  | None => if o_inherit_env o then env_get environ k else None
  end.
Proof.
  unfold wf_env, child_env, runtime_env, own_var. intro H.
  destruct (o_inherit_env o); destruct (o_env o) as [[|kv r]|]; try reflexivity.
  - rewrite env_get_update, binding_unique by assumption. reflexivity.
  - destruct (env_get (kv :: r) k); reflexivity.
Qed.

(** * name *)
Lemma cmd_name_spec pystr c : c_args c <> [] ->
  exists a0 rest, c_args c = a0 :: rest /\
  match o_alt_name (c_opts c) with
  | Some (x :: r) => cmd_name pystr c = Ok (x :: r)
  | _ => exists n, cmd_name pystr c = Ok n /\
     ((List.length (arg_str pystr a0) <= 31)%nat /\ n = arg_str pystr a0
      \/ exists pre last31, arg_str pystr a0 = pre ++ last31 /\ pre <> [] /\ List.length last31 = 31%nat
         /\ n = [46; 46; 46] ++ last31)
  end.
Proof.
  intro Hc. destruct (c_args c) as [|a0 rest] eqn:EA; [congruence|]. exists a0, rest. split; [reflexivity|].
  unfold cmd_name. rewrite EA.
  assert (K : exists n, (if (31 <? List.length (arg_str pystr a0))%nat
          then Ok (dots ++ skipn (List.length (arg_str pystr a0) - 31) (arg_str pystr a0))
          else Ok (arg_str pystr a0)) = Ok n /\
     ((List.length (arg_str pystr a0) <= 31)%nat /\ n = arg_str pystr a0
      \/ exists pre last31, arg_str pystr a0 = pre ++ last31 /\ pre <> [] /\ List.length last31 = 31%nat
         /\ n = [46; 46; 46] ++ last31)).
  { destruct (Nat.ltb_spec 31 (List.length (arg_str pystr a0))) as [L|L].
    - eexists. split; [reflexivity|]. right.
      exists (firstn (List.length (arg_str pystr a0) - 31) (arg_str pystr a0)),
             (skipn (List.length (arg_str pystr a0) - 31) (arg_str pystr a0)).
      split; [symmetry; apply firstn_skipn|]. split.
      + intro E. apply (f_equal (@List.length Z)) in E. rewrite firstn_length in E. cbn [List.length] in E. lia.
      + split; [rewrite skipn_length; lia | reflexivity].
    - eexists. split; [reflexivity|]. left. auto. }
  destruct (o_alt_name (c_opts c)) as [[|x r]|]; auto.
Qed.

(** * equality and hash of environments *)
Lemma env_get_in d k v : NoDup (keys d) -> (In (k, v) d <-> env_get d k = Some v).
Proof.
  induction d as [|[k0 v0] d IH]; intro H; cbn [env_get In].
  - split; [tauto|discriminate].
  - inversion H; subst. destruct (text_eqb k k0) eqn:E.
    + apply text_eqb_eq in E; subst. split.
      * intros [X|X]; [congruence|]. exfalso. apply H2. apply in_map_iff. exists (k0, v). auto.
      * intro X. left. congruence.
    + rewrite <- IH by assumption. split.
      * intros [X|X]; [|assumption]. inversion X; subst. rewrite text_eqb_refl in E. discriminate.
      * auto.
Qed.

Lemma env_eqb_iff a b : NoDup (keys a) -> NoDup (keys b) ->
  (env_eqb a b = true <-> forall k, env_get a k = env_get b k).
Proof.
  intros Ha Hb. unfold env_eqb, env_subset. rewrite andb_true_iff, Nat.eqb_eq, forallb_forall. split.
  - intros [HL HS].
    assert (Hsub : forall k v, In (k, v) a -> In (k, v) b).
    { intros k v Hin. specialize (HS _ Hin). cbn [fst snd] in HS.
      destruct (env_get b k) as [v'|] eqn:E; [|discriminate]. apply text_eqb_eq in HS; subst v'.
      apply env_get_in; assumption. }
    assert (Hna : NoDup a) by (eapply NoDup_map_inv; exact Ha).
    assert (Hincl : incl b a).
    { apply NoDup_length_incl; [assumption|lia|]. intros [k v] Hin. auto. }
    intro k. destruct (env_get a k) as [v|] eqn:E.
    + symmetry. apply env_get_in; [assumption|]. apply Hsub. apply env_get_in; assumption.
    + destruct (env_get b k) as [v|] eqn:E2; [|reflexivity].
      apply env_get_in in E2; [|assumption]. apply Hincl in E2. apply env_get_in in E2; [|assumption]. congruence.
  - intro HE. assert (Hab : forall p, In p a <-> In p b).
    { intros [k v]. rewrite !env_get_in by assumption. rewrite HE. tauto. }
    split.
    + assert (Hna : NoDup a) by (eapply NoDup_map_inv; exact Ha).
      assert (Hnb : NoDup b) by (eapply NoDup_map_inv; exact Hb).
      apply Nat.le_antisymm; apply NoDup_incl_length; auto; intros p Hp; apply Hab; assumption.
    + intros [k v] Hin. cbn [fst snd]. rewrite <- HE.
      apply env_get_in in Hin; [|assumption]. rewrite Hin. apply text_eqb_refl.
Qed.

Lemma env_ext_same_keys a : forall b, NoDup (keys a) -> keys a = keys b ->
  (forall k, env_get a k = env_get b k) -> a = b.
Proof.
  induction a as [|[k v] a IH]; intros [|[k' v'] b] Ha Hk He; try discriminate; [reflexivity|].
  cbn [keys map fst] in Hk. inversion Hk; subst k'.
  assert (v = v').
  { specialize (He k). cbn [env_get] in He. rewrite text_eqb_refl in He. congruence. }
  subst v'. f_equal. inversion Ha; subst. apply IH; auto.
  intro x. specialize (He x). cbn [env_get] in He.
  destruct (text_eqb x k) eqn:E; [|exact He].
  apply text_eqb_eq in E; subst x.
  assert (N : forall d, ~ In k (keys d) -> env_get d k = None).
  { clear. induction d as [|[a b] d IH]; intro H; [reflexivity|]. cbn [env_get].
    destruct (text_eqb k a) eqn:E.
    - apply text_eqb_eq in E; subst. exfalso; apply H; left; reflexivity.
    - apply IH. intro; apply H; right; assumption. }
  rewrite (N a), (N b); auto. unfold keys in *. congruence.
Qed.

Lemma c03_coerce_arg_once_per_argument_lemma :
  forall pystr St (cf : nat -> value -> St -> St * res value) f args (st st' : St),
  (forall out,
     coerce pystr St cf (Some f) args st = (st', Ok out) <->
     exists args', call_each (cf f) args st = (st', Ok args')
       /\ coerce pystr St cf None args' st' = (st', Ok out))
  /\ (forall e,
     coerce pystr St cf (Some f) args st = (st', Err e) ->
     exists pre rest args', args = pre ++ rest
       /\ ((call_each (cf f) pre st = (st', Err e) /\ args' = [])
           \/ (call_each (cf f) pre st = (st', Ok args')
               /\ coerce pystr St cf None args' st' = (st', Err e)))).
Proof.
  intros pystr St cf f args st st'. split.
  - intro out. split.
    + intro H. exact (proj1 (coerce_some_call_each pystr St cf f args st st' _ H) out eq_refl).
    + intros (args' & H1 & H2). exact (coerce_some_complete pystr St cf f args st st' args' out H1 H2).
  - intros e H. exact (proj2 (coerce_some_call_each pystr St cf f args st st' _ H) e eq_refl).
Qed.

Lemma c04_never_empty_lemma :
  forall pystr St (cf : nat -> value -> St -> St * res value) ctx a b us (st st1 st2 : St) c c' c'',
  ctx_call pystr St cf ctx a st = (st1, Ok c) ->
  apply_upds c us = Ok c' ->
  cmd_call pystr St cf c' b st1 = (st2, Ok c'') ->
  c_args c <> [] /\ c_args c' = c_args c /\ c_args c'' <> [].
Proof.
  intros pystr St cf ctx a b us st st1 st2 c c' c'' H1 H2 H3.
  destruct (ctx_call_nonempty _ _ _ _ _ _ _ _ H1) as [Hc _].
  destruct (apply_upds_history us c Hc) as [Hok Herr].
  destruct (forallb valid_upd us).
  - destruct (Hok eq_refl) as (o' & E & _). rewrite E in H2. inversion H2; subst.
    split; [exact Hc|]. split; [reflexivity|].
    exact (proj1 (cmd_call_nonempty _ _ _ (c_args c, o') _ _ _ _ Hc H3)).
  - destruct (Herr eq_refl) as (e & E). congruence.
Qed.

Lemma c07_child_environment_lemma :
  forall us args c' environ k, args <> [] ->
  apply_upds (args, default_options) us = Ok c' ->
  env_get (child_env (c_opts c') environ) k =
  match var_after us k None with
  | Some v => Some v
  | None => if latest (of_set k_inherit_env) us true then env_get environ k else None
  end.
Proof.
  intros us args c' environ k Ha H.
  destruct (apply_upds_env us (args, default_options) c' Ha I H) as [Hw Hv].
  rewrite (child_env_lookup _ environ k Hw), (Hv k).
  destruct (apply_upds_history us (args, default_options) Ha) as [Hok Herr].
  destruct (forallb valid_upd us).
  - destruct (Hok eq_refl) as (o' & E & F). rewrite E in H. inversion H; subst.
    cbn [c_opts snd]. rewrite (fh_inherit_env _ _ _ F). reflexivity.
  - destruct (Herr eq_refl) as (e & E). congruence.
Qed.

Lemma c08_equal_hash_partial_lemma :
  forall a b (hash_tuple : list (text * text) -> Z), NoDup (keys a) -> NoDup (keys b) ->
  (env_eqb a b = true <-> forall k, env_get a k = env_get b k)
  /\ (env_eqb a b = true -> keys a = keys b -> env_hash hash_tuple a = env_hash hash_tuple b).
Proof.
  intros a b h Ha Hb. split; [exact (env_eqb_iff a b Ha Hb)|].
  intros He Hk. pose proof (proj1 (env_eqb_iff a b Ha Hb) He) as He2. unfold env_hash. f_equal.
  exact (env_ext_same_keys a b Ha Hk He2).
Qed.
