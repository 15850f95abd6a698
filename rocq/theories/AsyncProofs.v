From Verif Require Import AsyncModel AsyncSpec.

Ltac inv H := inversion H; subst; clear H.

(** Inversion of monadic runs. *)
Ltac mstep :=
  match goal with
  | H : @bindM _ _ _ _ _ _ _ _ _ _ |- _ =>
      let a := fresh "a" in let w1 := fresh "w1" in let H1 := fresh "H" in let H2 := fresh "H" in let e := fresh "e" in
      destruct H as [(a & w1 & H1 & H2)|(e & H1 & H2)]
  | H : @ret _ _ _ _ _ _ _ _ |- _ => destruct H as [? ?]
  | H : @raise _ _ _ _ _ _ _ _ |- _ => destruct H as [? ?]
  | H : @getM _ _ _ _ _ _ |- _ => destruct H as [? ?]
  | H : @modM _ _ _ _ _ _ _ |- _ => destruct H as [? ?]
  | H : Ok _ = Ok _ |- _ => injection H as H
  | H : Err _ = Err _ |- _ => injection H as H
  | H : Ok _ = Err _ |- _ => discriminate H
  | H : Err _ = Ok _ |- _ => discriminate H
  | H : ?x = _ |- _ => is_var x; subst x
  | H : _ = ?x |- _ => is_var x; subst x
  end.
Ltac msteps := repeat (mstep; cbn beta iota in *).

Lemma nth_upd_same {A} (l : list A) i f a : nth_error l i = Some a -> nth_error (upd_nth l i f) i = Some (f a).
Proof. revert i. induction l as [|x l IH]; intros [|i] H; cbn in *; try discriminate; [congruence|auto]. Qed.
Lemma nth_upd_other {A} (l : list A) i j f : i <> j -> nth_error (upd_nth l i f) j = nth_error l j.
Proof. revert i j. induction l as [|x l IH]; intros [|i] [|j] H; cbn; auto; try congruence. Qed.
Lemma nth_upd_none {A} (l : list A) i f : nth_error l i = None -> upd_nth l i f = l.
Proof. revert i. induction l as [|x l IH]; intros [|i] H; cbn in *; try discriminate; auto. now rewrite IH. Qed.
Lemma length_upd {A} (l : list A) i f : List.length (upd_nth l i f) = List.length l.
Proof. revert i. induction l as [|x l IH]; intros [|i]; cbn; auto. Qed.

Section Proofs.
Context {X K V XE : Type}.
Context (xstep : X -> XE -> option (X * bool)).
Context (finish : X -> task K V -> tout V -> option X).
Notation world := (world X K V).
Notation hist := (list (hev V)).

Lemma done_in_app i (a b : hist) : done_in i (a ++ b) = match done_in i a with Some o => Some o | None => done_in i b end.
Proof. induction a as [|[j o|j| |] a IH]; cbn; auto. destruct (Nat.eqb i j); auto. Qed.
Lemma reqs_app i (a b : hist) : reqs i (a ++ b) = (reqs i a + reqs i b)%nat.
Proof. induction a as [|[j o|j| |] a IH]; cbn; auto. rewrite IH. lia. Qed.
Lemma cancels_app (a b : hist) : cancels (a ++ b) = (cancels a + cancels b)%nat.
Proof. induction a as [|[j o|j| |] a IH]; cbn; auto. Qed.
Lemma done_in_In i o (h : hist) : done_in i h = Some o -> In (HDone i o) h.
Proof.
  induction h as [|[j o'|j| |] h IH]; cbn; try discriminate; auto.
  destruct (Nat.eqb_spec i j) as [->|]; auto. intros [= ->]. now left.
Qed.
Lemma done_in_None i (h : hist) : done_in i h = None -> forall o, ~ In (HDone i o) h.
Proof.
  induction h as [|[j o'|j| |] h IH]; cbn; intros H o; auto; try (intros [E|E]; [discriminate|now apply (IH H o)]).
  destruct (Nat.eqb_spec i j) as [->|D]; [discriminate|]. intros [E|E]; [congruence|now apply (IH H o)].
Qed.
Lemma reqs_In i (h : hist) : (reqs i h > 0)%nat <-> In (HReq i) h.
Proof.
  induction h as [|[j o'|j| |] h IH]; cbn.
  - split; [lia|tauto].
  - rewrite IH. split; [tauto|]. intros [E|E]; [discriminate|exact E].
  - destruct (Nat.eqb_spec i j) as [->|D]; [split; [now left|lia]|]. cbn. rewrite IH. split; [tauto|].
    intros [E|E]; [congruence|exact E].
  - rewrite IH. split; [tauto|]. intros [E|E]; [discriminate|exact E].
  - rewrite IH. split; [tauto|]. intros [E|E]; [discriminate|exact E].
Qed.
Lemma cancels_In (h : hist) : (cancels h > 0)%nat <-> In HCancel h.
Proof.
  induction h as [|[j o'|j| |] h IH]; cbn; try (rewrite IH; split; [tauto|]; intros [E|E]; [discriminate|exact E]).
  - split; [lia|tauto].
  - split; [now left|lia].
Qed.

Lemma extends_refl (w : world) : extends w [] w.
Proof.
  split; [now rewrite app_nil_r|]. split; [|intros i o []].
  intros i t H. exists t. rewrite Nat.add_0_r. repeat split; auto. destruct (t_out t); auto.
Qed.

Lemma ext_out (w w' : world) h i : extends w h w' -> nth_error (w_tasks w) i <> None ->
  task_out w' i = match task_out w i with Some o => Some o | None => done_in i h end.
Proof.
  intros (_ & H & _) N. unfold task_out. destruct (nth_error (w_tasks w) i) as [t|] eqn:E; [|congruence].
  destruct (H i t E) as (t' & -> & _ & O & _). exact O.
Qed.
Lemma ext_out_some (w w' : world) h i o : extends w h w' -> task_out w i = Some o -> task_out w' i = Some o.
Proof.
  intros H E. rewrite (ext_out _ _ _ _ H). now rewrite E.
  unfold task_out in E. destruct (nth_error _ _); congruence.
Qed.
Lemma ext_done (w w' : world) h i : extends w h w' -> task_done w i = true -> task_done w' i = true.
Proof.
  intros H. unfold task_done. destruct (task_out w i) eqn:E; [|discriminate]. now rewrite (ext_out_some _ _ _ _ _ H E).
Qed.
Lemma ext_undone (w w' : world) h i : extends w h w' -> task_done w' i = false -> task_done w i = false.
Proof. intros H D. destruct (task_done w i) eqn:E; [|reflexivity]. rewrite (ext_done _ _ _ _ H E) in D. discriminate. Qed.

Lemma extends_trans (w w1 w2 : world) h1 h2 : extends w h1 w1 -> extends w1 h2 w2 -> extends w (h1 ++ h2) w2.
Proof.
  intros A B. pose proof A as A'. pose proof B as B'.
  destruct A as (A1 & A2 & A3), B as (B1 & B2 & B3). split; [now rewrite B1, A1, app_assoc|]. split.
  - intros i t E. destruct (A2 i t E) as (t1 & E1 & K1 & O1 & C1). destruct (B2 i t1 E1) as (t2 & E2 & K2 & O2 & C2).
    exists t2. split; [exact E2|]. split; [congruence|]. split.
    + rewrite O2, O1. destruct (t_out t); auto. rewrite done_in_app. reflexivity.
    + rewrite C2, C1, reqs_app. lia.
  - intros i o Hin. apply in_app_or in Hin as [Hin|Hin].
    + destruct (A3 i o Hin) as [P Q]. split; [|exact Q]. now apply (ext_out_some _ _ _ _ _ B').
    + destruct (B3 i o Hin) as [P Q]. split; [exact P|]. destruct (task_out w i) eqn:E; [|reflexivity].
      rewrite (ext_out_some _ _ _ _ _ A' E) in Q. discriminate.
Qed.

Lemma extends_finish (w : world) i t o x1 :
  nth_error (w_tasks w) i = Some t -> t_out t = None ->
  extends w [HDone i o] (mk_world (upd_nth (w_tasks w) i (fun t => mk_task (t_kind t) (Some o) (t_creq t))) x1 (w_hist w ++ [HDone i o])).
Proof.
  intros E O. split; [reflexivity|]. split.
  - intros j u Eu. cbn [w_tasks]. destruct (Nat.eq_dec i j) as [<-|D].
    + rewrite E in Eu. injection Eu as <-. rewrite (nth_upd_same _ _ _ _ E). eexists. split; [reflexivity|].
      cbn. rewrite O, Nat.eqb_refl. repeat split; auto.
    + rewrite nth_upd_other by exact D. exists u. split; [exact Eu|]. split; [reflexivity|]. cbn.
      destruct (Nat.eqb_spec j i) as [->|_]; [congruence|]. split; [destruct (t_out u); auto|lia].
  - intros j o' [[= <- <-]|[]]. unfold task_out. cbn [w_tasks]. rewrite (nth_upd_same _ _ _ _ E), E. auto.
Qed.

Lemma extends_hist (w : world) x h : (forall i o, ~ In (HDone i o) h) -> (forall i, ~ In (HReq i) h) ->
  extends w h (mk_world (w_tasks w) x (w_hist w ++ h)).
Proof.
  intros A B. split; [reflexivity|]. split.
  - intros i t E. exists t. cbn. split; [exact E|]. split; [reflexivity|]. split.
    + destruct (t_out t); auto. destruct (done_in i h) eqn:D; [|reflexivity]. apply done_in_In in D. now apply A in D.
    + destruct (reqs i h) eqn:R; [lia|]. exfalso. apply (B i). apply reqs_In. lia.
  - intros i o H. now apply A in H.
Qed.

Lemma extends_req (w : world) i : exists h, extends w h (req w i)
  /\ h = (if task_done w i then [] else [HReq i]).
Proof.
  unfold req. destruct (task_done w i) eqn:D; [exists []; split; [apply extends_refl|reflexivity]|].
  exists [HReq i]. split; [|reflexivity]. split; [reflexivity|]. split; [|intros j o [[=]|[]]].
  intros j u Eu. cbn [w_tasks]. destruct (Nat.eq_dec i j) as [<-|N].
  - rewrite (nth_upd_same _ _ _ _ Eu). eexists. split; [reflexivity|]. cbn. rewrite Nat.eqb_refl. repeat split.
    + destruct (t_out u); auto.
    + lia.
  - rewrite nth_upd_other by exact N. exists u. split; [exact Eu|]. split; [reflexivity|]. cbn.
    destruct (Nat.eqb_spec j i) as [->|_]; [congruence|]. split; [destruct (t_out u); auto|lia].
Qed.
Lemma req_x (w : world) i : w_x (req w i) = w_x w.
Proof. unfold req. destruct (task_done w i); reflexivity. Qed.

Lemma extends_spawn (w : world) k : extends w [] (mk_world (w_tasks w ++ [mk_task k None 0]) (w_x w) (w_hist w)).
Proof.
  split; [cbn; now rewrite app_nil_r|]. split; [|intros i o []].
  intros i t E. exists t. cbn. split; [rewrite nth_error_app1; [exact E|apply nth_error_Some; congruence]|].
  rewrite Nat.add_0_r. repeat split. destruct (t_out t); auto.
Qed.

(** Properties of one event. *)
Lemma env_step_ext (w : world) ev w' c : env_step xstep finish w ev = Some (w', c) ->
  exists h, extends w h w' /\ (forall i, ~ In (HReq i) h) /\ ~ In HTimer h /\ cancels h = (if c then 1 else 0)%nat.
Proof.
  destruct ev as [i o|e]; cbn.
  - destruct (nth_error (w_tasks w) i) as [t|] eqn:E; [|discriminate]. destruct (t_out t) eqn:O; [discriminate|].
    destruct (finish _ _ _) as [x1|]; [|discriminate]. intros [= <- <-]. exists [HDone i o].
    split; [now apply extends_finish with (t := t)|].
    split; [intros j [[=]|[]]|]. split; [intros [[=]|[]]|reflexivity].
  - destruct (xstep (w_x w) e) as [[x' c']|]; [|discriminate]. intros [= <- <-].
    exists (if c' then [HCancel] else []). split; [apply extends_hist; destruct c'; cbn; intuition discriminate|].
    destruct c'; cbn; intuition discriminate.
Qed.

Definition no_req (h : hist) : Prop := forall i, ~ In (HReq i) h.
Lemma no_req_app a b : no_req a -> no_req b -> no_req (a ++ b).
Proof. intros A B i H. apply in_app_or in H as [H|H]; [now apply A in H|now apply B in H]. Qed.
Lemma no_req_nil : no_req []. Proof. intros i []. Qed.

(** Invariant of a suspended asyncio.wait. *)
Record wait_inv (fs : list nat) (tmo : bool) (mode : wmode) (w0 w : world) (s : wst) (h : hist) : Prop := {
  wi_ext : extends w0 h w;
  wi_req : no_req h;
  wi_canc : s_canc s = true <-> In HCancel h;
  wi_timer : In HTimer h -> tmo = true;
  wi_armed : s_armed s = true -> tmo = true;
  wi_cbs : forall i, In i fs -> ~ In i (s_cbs s) -> task_done w i = true;
  wi_fired : s_fired s = true ->
     In HTimer h \/ s_cbs s = [] \/ (mode = FIRST_EXCEPTION /\ exists i, In i fs /\ out_failed (task_out w i) = true);
  wi_sub : forall i, In i (s_cbs s) -> In i fs
}.

Lemma out_failed_ext (w w' : world) h i : extends w h w' -> out_failed (task_out w i) = true -> out_failed (task_out w' i) = true.
Proof.
  intros H. destruct (task_out w i) as [o|] eqn:E; [|discriminate]. now rewrite (ext_out_some _ _ _ _ _ H E).
Qed.

Lemma wait_inv_step fs tmo mode w0 w s h ev w' s' :
  wait_inv fs tmo mode w0 w s h -> wait_step xstep finish mode None (w, s) ev = Some (w', s') ->
  exists h', wait_inv fs tmo mode w0 w' s' h'.
Proof.
  intros I. destruct ev as [e|i|]; cbn [wait_step].
  - destruct (env_step xstep finish w e) as [[w1 c]|] eqn:E; [|discriminate].
    destruct (env_step_ext _ _ _ _ E) as (h1 & A & B & C & D). intro S.
    exists (h ++ h1).
    assert (G : w' = w1 /\ s' = mk_wst (s_cbs s) (s_armed s) (s_fired s) (s_canc s || c)).
    { destruct c; injection S as <- <-; [rewrite orb_true_r|rewrite orb_false_r]; destruct s; auto. }
    destruct G as [-> ->]. destruct I. constructor; cbn.
    + now apply extends_trans with w.
    + now apply no_req_app.
    + rewrite orb_true_iff, wi_canc0, in_app_iff, <- (cancels_In h1), D. destruct c; split; intros [Q|Q]; auto; try discriminate; lia.
    + intro Q. apply in_app_or in Q as [Q|Q]; [auto|contradiction].
    + auto.
    + intros j Hj Hn. apply (ext_done _ _ _ _ A). auto.
    + intro Q. destruct (wi_fired0 Q) as [R|[R|(R & j & P1 & P2)]]; [left; apply in_or_app; auto|auto|].
      right; right. split; [exact R|]. exists j. split; [exact P1|]. now apply (out_failed_ext _ _ _ _ A).
    + auto.
  - destruct (existsb (Nat.eqb i) (s_cbs s) && task_done w i) eqn:E; [|discriminate].
    apply andb_true_iff in E as [E1 E2]. apply existsb_exists in E1 as (j & Hj & Ej). apply Nat.eqb_eq in Ej. subst j.
    set (cbs := remove Nat.eq_dec i (s_cbs s)).
    assert (Hcbs : forall j, In j fs -> ~ In j cbs -> task_done w j = true).
    { intros j Hf Hn. destruct (Nat.eq_dec j i) as [->|Nj]; [exact E2|]. apply (wi_cbs _ _ _ _ _ _ _ I j Hf).
      intro Q. apply Hn. unfold cbs. apply in_in_remove; auto. }
    assert (Hsub : forall j, In j cbs -> In j fs).
    { intros j Q. unfold cbs in Q. apply in_remove in Q as [Q _]. now apply (wi_sub _ _ _ _ _ _ _ I). }
    destruct (_ || _) eqn:T; intros [= <- <-]; exists h; destruct I; constructor; cbn; auto; try discriminate.
    + intros _. apply orb_true_iff in T as [T|T].
      * right; left. destruct cbs; [reflexivity|discriminate].
      * destruct mode; [discriminate|]. right; right. split; [reflexivity|]. exists i. split; [auto|exact T].
    + intro Q. destruct (wi_fired0 Q) as [R|[R|R]]; auto. rewrite R in Hj. destruct Hj.
  - destruct (s_armed s && _ && _) eqn:E; [|discriminate]. intros [= <- <-]. exists (h ++ [HTimer]).
    apply andb_true_iff in E as [E1 _]. apply andb_true_iff in E1 as [E1 _].
    assert (A : extends w [HTimer] (mk_world (w_tasks w) (w_x w) (w_hist w ++ [HTimer]))).
    { apply extends_hist; cbn; intuition discriminate. }
    destruct I. constructor; cbn; auto; try discriminate.
    + now apply extends_trans with w.
    + apply no_req_app; [auto|]. intros i [Q|[]]; discriminate.
    + rewrite in_app_iff, wi_canc0. cbn. intuition discriminate.
    + left. apply in_or_app. right. now left.
Qed.

Lemma wait_inv_run fs tmo mode w0 evs : forall w s h w' s',
  wait_inv fs tmo mode w0 w s h -> wait_run xstep finish mode None (w, s) evs = Some (w', s') ->
  exists h', wait_inv fs tmo mode w0 w' s' h'.
Proof.
  induction evs as [|ev evs IH]; intros w s h w' s' I; cbn [wait_run].
  - intros [= <- <-]. eauto.
  - destruct (wait_step _ _ _ _ _ _) as [[w1 s1]|] eqn:E; [|discriminate].
    destruct (wait_inv_step _ _ _ _ _ _ _ _ _ _ I E) as (h1 & I1). eauto.
Qed.

Lemma wait_inv_init fs tmo mode w : wait_inv fs tmo mode w w (mk_wst (nodup Nat.eq_dec fs) tmo false false) [].
Proof.
  constructor; cbn; auto; try discriminate.
  - apply extends_refl.
  - apply no_req_nil.
  - split; [discriminate|intros []].
  - intros i Hi Hn. exfalso. apply Hn. now apply nodup_In.
  - intros i Hi. now apply nodup_In in Hi.
Qed.

Definition pending_of (w : world) (fs : list nat) : list nat :=
  filter (fun i => negb (task_done w i)) (nodup Nat.eq_dec fs).
Lemma in_pending w fs i : In i (pending_of w fs) <-> In i fs /\ task_done w i = false.
Proof. unfold pending_of. rewrite filter_In, nodup_In, negb_true_iff. tauto. Qed.
Lemma pending_nil w fs : pending_of w fs = [] <-> forall i, In i fs -> task_done w i = true.
Proof.
  split.
  - intros E i Hi. destruct (task_done w i) eqn:D; [reflexivity|].
    assert (Q : In i (pending_of w fs)) by now apply in_pending. rewrite E in Q. destruct Q.
  - intros H. destruct (pending_of w fs) as [|i l] eqn:E; [reflexivity|].
    assert (Q : In i (pending_of w fs)) by (rewrite E; now left). apply in_pending in Q as [Q1 Q2].
    rewrite (H i Q1) in Q2. discriminate.
Qed.

Lemma await_wait_spec fs tmo mode w r w' :
  await_wait xstep finish fs tmo mode w r w' -> fs <> [] ->
  exists h, extends w h w' /\ no_req h /\ (In HTimer h -> tmo = true)
  /\ ((r = Err CancelledError /\ In HCancel h)
      \/ (r = Ok (filter (task_done w') (nodup Nat.eq_dec fs), pending_of w' fs) /\ ~ In HCancel h
          /\ (pending_of w' fs = [] \/ In HTimer h
              \/ (mode = FIRST_EXCEPTION /\ exists i, In i fs /\ out_failed (task_out w' i) = true)))).
Proof.
  intros H Hne. destruct fs as [|f fs']; [congruence|]. destruct H as (evs & s & R & D).
  set (fs := f :: fs') in *.
  destruct (wait_inv_run fs tmo mode w evs _ _ _ _ _ (wait_inv_init fs tmo mode w) R) as (h & I).
  exists h. destruct I. repeat (split; [now auto|]). destruct D as [(C & ->)|(C & F & ->)].
  - left. split; [reflexivity|]. now apply wi_canc0.
  - right. split; [reflexivity|]. split; [intro Q; apply wi_canc0 in Q; congruence|].
    destruct (wi_fired0 F) as [Q|[Q|Q]]; auto. left. apply pending_nil. intros i Hi.
    apply wi_cbs0; [exact Hi|]. rewrite Q. intros [].
Qed.
End Proofs.

(** Constructing runs. *)
Section Build.
Context {X K V XE : Type}.
Context (xstep : X -> XE -> option (X * bool)).
Context (finish : X -> task K V -> tout V -> option X).
Notation world := (world X K V).
Notation M := (@M X K V).

Lemma b_bind {A B} (m : M A) (f : A -> M B) w a w1 r w' : m w (Ok a) w1 -> f a w1 r w' -> bindM m f w r w'.
Proof. left. eauto. Qed.
Lemma b_bind_err {A B} (m : M A) (f : A -> M B) w e w' : m w (Err e) w' -> bindM m f w (Err e) w'.
Proof. right. eauto. Qed.
Lemma b_try {A} (m : M A) (h : exn -> option (M A)) w a w' : m w (Ok a) w' -> tryM m h w (Ok a) w'.
Proof. left. eauto. Qed.
Lemma b_try_err {A} (m : M A) (h : exn -> option (M A)) w e w1 r w' (k : M A) : m w (Err e) w1 -> h e = Some k -> k w1 r w' -> tryM m h w r w'.
Proof. intros A1 A2 A3. right. exists e, w1. split; [exact A1|]. now rewrite A2. Qed.
Lemma b_try_pass {A} (m : M A) (h : exn -> option (M A)) w e w' : m w (Err e) w' -> h e = None -> tryM m h w (Err e) w'.
Proof. intros A1 A2. right. exists e, w'. split; [exact A1|]. now rewrite A2. Qed.
Lemma b_wait fs tmo mode evs (w : world) r w' s : fs <> [] ->
  wait_run xstep finish mode None (w, mk_wst (nodup Nat.eq_dec fs) tmo false false) evs = Some (w', s) ->
  (if s_canc s then r = Err CancelledError
   else s_fired s = true /\ r = Ok (filter (task_done w') (nodup Nat.eq_dec fs), pending_of w' fs)) ->
  await_wait xstep finish fs tmo mode w r w'.
Proof.
  intros N R D. destruct fs as [|f fs]; [congruence|]. exists evs, s. split; [exact R|].
  destruct (s_canc s); [left; auto|right]. destruct D as [D ->]. auto.
Qed.
Lemma b_finally {A} (m : M A) (f : M unit) w r w1 w' : m w r w1 -> f w1 (Ok tt) w' -> finallyM m f w r w'.
Proof. intros. exists r, w1. auto. Qed.
Lemma b_finally_err {A} (m : M A) (f : M unit) w r w1 e w' : m w r w1 -> f w1 (Err e) w' -> finallyM m f w (Err e) w'.
Proof. intros. exists r, w1. eauto. Qed.

(** A suspended asyncio.wait can always be woken once its tasks are done: the
    pending callbacks are enabled and lead to resumption. *)
Lemma wait_progress mode (w : world) : forall cbs s, s_cbs s = cbs -> NoDup cbs -> cbs <> [] ->
  (forall i, In i cbs -> task_done w i = true) ->
  exists evs w' s', wait_run xstep finish mode None (w, s) evs = Some (w', s') /\ s_fired s' = true
    /\ Forall (fun ev => exists i, ev = WCallback i) evs /\ w' = w.
Proof.
  induction cbs as [|i cbs IH]; intros s E ND NE AD; [congruence|].
  inversion ND as [|? ? Hni ND']; subst.
  assert (S1 : exists s1, wait_step xstep finish mode None (w, s) (WCallback i) = Some (w, s1) /\ (s_fired s1 = true \/ s_cbs s1 = cbs /\ cbs <> [])).
  { cbn [wait_step]. rewrite E. cbn [existsb]. rewrite Nat.eqb_refl, (AD i (or_introl eq_refl)). cbn [orb andb].
    assert (R : remove Nat.eq_dec i (i :: cbs) = cbs).
    { cbn. destruct (Nat.eq_dec i i); [|congruence]. now apply notin_remove. }
    rewrite R. destruct (_ || _) eqn:T; eexists; (split; [reflexivity|]); cbn; [now left|]. right. split; [reflexivity|].
    destruct cbs; [discriminate|discriminate]. }
  destruct S1 as (s1 & S1 & D). destruct D as [F|[E1 N1]].
  - exists [WCallback i], w, s1. cbn [wait_run]. rewrite S1. repeat split; auto. repeat constructor. eauto.
  - destruct (IH s1 E1 ND' N1) as (evs & w' & s' & R & F & FA & ->); [intros j Hj; apply AD; now right|].
    exists (WCallback i :: evs), w, s'. cbn [wait_run]. rewrite S1. repeat split; auto. constructor; eauto.
Qed.
End Build.
