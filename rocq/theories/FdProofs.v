From Verif Require Import PipelineModel RunOptionsModel RouteSpec RouteProofs FdSpec.
Open Scope Z_scope.

Lemma occ_app fd a b : occ fd (a ++ b) = (occ fd a + occ fd b)%nat.
Proof. induction a as [|z a IH]; cbn; [reflexivity|]. rewrite IH. lia. Qed.
Lemma occ_In fd l : ~ In fd l -> occ fd l = 0%nat.
Proof. induction l as [|z l IH]; cbn; intros H; [reflexivity|]. destruct (Z.eqb_spec z fd); [tauto|]. rewrite IH; tauto. Qed.
Lemma closes_app fd a b : closes fd (a ++ b) = (closes fd a + closes fd b)%nat.
Proof. induction a as [|[z|z] a IH]; cbn; [reflexivity|exact IH|]. rewrite IH. lia. Qed.
Lemma opens_app fd a b : opens fd (a ++ b) = (opens fd a + opens fd b)%nat.
Proof. induction a as [|[z|z] a IH]; cbn; [reflexivity| |exact IH]. rewrite IH. lia. Qed.
Lemma closes_opened fd L : closes fd (map Opened L) = 0%nat.
Proof. induction L; cbn; auto. Qed.
Lemma opens_opened fd L : opens fd (map Opened L) = occ fd L.
Proof. induction L as [|z L IH]; cbn; [reflexivity|]. now rewrite IH. Qed.
Lemma closes_existsb fd log : existsb (fdev_eqb (Closed fd)) log = false -> closes fd log = 0%nat.
Proof.
  induction log as [|[z|z] l IH]; cbn; [reflexivity|exact IH|]. rewrite Z.eqb_sym. destruct (z =? fd); [discriminate|]. exact IH.
Qed.
Lemma closes_existsb_true fd log : existsb (fdev_eqb (Closed fd)) log = true -> (closes fd log > 0)%nat.
Proof.
  induction log as [|[z|z] l IH]; cbn; [discriminate|exact IH|]. rewrite Z.eqb_sym. destruct (z =? fd); [lia|]. exact IH.
Qed.

(** Items that are ints, and items that own a descriptor. *)
Fixpoint cnt (fd : Z) (l : list item) : nat :=
  match l with [] => 0 | IFd z :: l' => ((if (z =? fd)%Z then 1 else 0) + cnt fd l')%nat | _ :: l' => cnt fd l' end.
Fixpoint cntf (fd : Z) (l : list item) : nat :=
  match l with [] => 0 | (IFile z | IChild z) :: l' => ((if (z =? fd)%Z then 1 else 0) + cntf fd l')%nat | _ :: l' => cntf fd l' end.
Lemma cnt_app fd a b : cnt fd (a ++ b) = (cnt fd a + cnt fd b)%nat.
Proof. induction a as [|[] a IH]; cbn; rewrite ?IH; lia. Qed.
Lemma cntf_app fd a b : cntf fd (a ++ b) = (cntf fd a + cntf fd b)%nat.
Proof. induction a as [|[] a IH]; cbn; rewrite ?IH; lia. Qed.
Lemma cnt_map fd l : cnt fd (map IFd l) = occ fd l.
Proof. induction l as [|z l IH]; cbn; [reflexivity|]. now rewrite IH. Qed.
Lemma cntf_map fd l : cntf fd (map IFd l) = 0%nat.
Proof. induction l; cbn; auto. Qed.
Lemma close_fds_app a b log : close_fds (a ++ b) log = close_fds b (close_fds a log).
Proof. apply fold_left_app. Qed.

Lemma close_fds_ints fd l log : 0 <= fd -> cntf fd l = 0%nat -> closes fd (close_fds l log) = (closes fd log + cnt fd l)%nat.
Proof.
  intros P. revert log. induction l as [|i l IH]; intros log H; cbn [close_fds fold_left]; [cbn; lia|].
  change (fold_left close_item l ?x) with (close_fds l x). destruct i; cbn [cntf cnt close_item] in *.
  - rewrite IH by exact H. destruct (0 <=? z) eqn:E; [rewrite closes_app; cbn; lia|].
    destruct (Z.eqb_spec z fd); [subst; lia|]. lia.
  - rewrite IH by lia. destruct (existsb _ log); [lia|]. rewrite closes_app. cbn. destruct (fd0 =? fd); cbn in *; lia.
  - rewrite IH by lia. destruct (existsb _ log); [lia|]. rewrite closes_app. cbn. destruct (fd0 =? fd); cbn in *; lia.
  - apply IH. exact H.
Qed.
Lemma close_fds_file fd l log : 0 <= fd -> closes fd log = 0%nat -> (cnt fd l + cntf fd l = 1)%nat -> closes fd (close_fds l log) = 1%nat.
Proof.
  intros P. revert log. induction l as [|i l IH]; intros log H Q; cbn [close_fds fold_left]; [discriminate|].
  change (fold_left close_item l ?x) with (close_fds l x). destruct i; cbn [cntf cnt close_item] in *.
  - destruct (Z.eqb_spec z fd).
    + subst. rewrite close_fds_ints by lia. destruct (0 <=? fd) eqn:E; [|lia]. rewrite closes_app, H. cbn. rewrite Z.eqb_refl. lia.
    + apply IH; [|lia]. destruct (0 <=? z); [|exact H]. rewrite closes_app, H. cbn. apply Z.eqb_neq in n. now rewrite n.
  - destruct (Z.eqb_spec fd0 fd).
    + subst. destruct (existsb _ log) eqn:E; [apply closes_existsb_true in E; lia|]. rewrite close_fds_ints by lia. rewrite closes_app, H. cbn. rewrite Z.eqb_refl. lia.
    + apply IH; [|lia]. destruct (existsb _ log); [exact H|]. rewrite closes_app, H. cbn. apply Z.eqb_neq in n. now rewrite n.
  - destruct (Z.eqb_spec fd0 fd).
    + subst. destruct (existsb _ log) eqn:E; [apply closes_existsb_true in E; lia|]. rewrite close_fds_ints by lia. rewrite closes_app, H. cbn. rewrite Z.eqb_refl. lia.
    + apply IH; [|lia]. destruct (existsb _ log); [exact H|]. rewrite closes_app, H. cbn. apply Z.eqb_neq in n. now rewrite n.
  - apply IH; assumption.
Qed.
Lemma close_fds_none fd l log : 0 <= fd -> (cnt fd l + cntf fd l = 0)%nat -> closes fd (close_fds l log) = closes fd log.
Proof. intros P H. rewrite close_fds_ints; lia. Qed.

(** ** cleanup of a command *)
Lemma redirect_neg r fd : 0 <= fd -> (redirect_int r =? fd) = false.
Proof. intros H. apply Z.eqb_neq. destruct r; cbn; lia. Qed.
Lemma cnt_add_close fd b v : 0 <= fd -> cnt fd (add_close b v) = occ fd (closed_int b v) /\ cntf fd (add_close b v) = 0%nat.
Proof. intros H. unfold add_close, closed_int. destruct b; [|auto]. destruct v; auto. cbn. now rewrite redirect_neg. Qed.
Lemma cnt_cleanup fd o : 0 <= fd -> cnt fd (cleanup_items o) = occ fd (closable o) /\ cntf fd (cleanup_items o) = 0%nat.
Proof.
  intros H. unfold cleanup_items, closable. rewrite !cnt_app, !cntf_app, !occ_app.
  destruct (cnt_add_close fd (o_input_close o) (o_input o) H) as [-> ->]. destruct (cnt_add_close fd (o_output_close o) (o_output o) H) as [-> ->].
  destruct (cnt_add_close fd (o_error_close o) (o_error o) H) as [-> ->]. destruct (o_pass_fds_close o); [rewrite cnt_map, cntf_map|cbn]; lia.
Qed.
(** What cleaning up a substitution closes. *)
Definition sub_occ (fd : Z) (v : value) : nat := match value_options v with Some o => occ fd (closable o) | None => 0%nat end.
Fixpoint subs_occ (fd : Z) (l : list value) : nat := match l with [] => 0 | v :: l' => (sub_occ fd v + subs_occ fd l')%nat end.
Lemma subs_occ_app fd a b : subs_occ fd (a ++ b) = (subs_occ fd a + subs_occ fd b)%nat.
Proof. induction a as [|v a IH]; cbn; [reflexivity|]. rewrite IH. lia. Qed.
Lemma closes_cleanup fd v log : 0 <= fd -> closes fd (cleanup v log) = (closes fd log + sub_occ fd v)%nat.
Proof.
  intros H. unfold cleanup, sub_occ. destruct (value_options v) as [o|]; [|lia]. destruct (cnt_cleanup fd o H) as [A B]. rewrite close_fds_ints; lia.
Qed.
Lemma closes_cleanups fd l log : 0 <= fd -> closes fd (fold_left (fun l sub => cleanup sub l) l log) = (closes fd log + subs_occ fd l)%nat.
Proof. intros H. revert log. induction l as [|v l IH]; intros log; cbn; [lia|]. rewrite IH, closes_cleanup by exact H. lia. Qed.

(** ** What a step of the setup adds *)
Record delta (s s' : rst) (L : list Z) (It : list item) (Sb : list value) : Prop := {
  d_log : s_log s' = s_log s ++ map Opened L;
  d_next : s_next s <= s_next s';
  d_fresh : forall fd, In fd L -> s_next s <= fd < s_next s';
  d_nodup : NoDup L;
  d_open : s_open s' = s_open s ++ It;
  d_subs : s_subcmds s' = s_subcmds s ++ Sb
}.
Lemma delta_refl s : delta s s [] [] [].
Proof. constructor; rewrite ?app_nil_r; auto; try lia; try easy; constructor. Qed.
Lemma NoDup_app_lt (a b : list Z) m : NoDup a -> NoDup b -> (forall z, In z a -> z < m) -> (forall z, In z b -> m <= z) -> NoDup (a ++ b).
Proof.
  intros A B C D. induction A as [|x a X A IH]; cbn; [exact B|]. constructor; [|apply IH; intros; apply C; now right].
  intros Q. apply in_app_iff in Q as [Q|Q]; [tauto|]. apply D in Q. specialize (C x (or_introl eq_refl)). lia.
Qed.
Lemma occ_nodup fd (l : list Z) : NoDup l -> (occ fd l <= 1)%nat.
Proof. intros H. induction H as [|x l X H IH]; cbn; [lia|]. destruct (Z.eqb_spec x fd); [|lia]. subst. rewrite occ_In by exact X. lia. Qed.
Lemma delta_trans s s1 s2 L1 L2 I1 I2 S1 S2 : delta s s1 L1 I1 S1 -> delta s1 s2 L2 I2 S2 -> delta s s2 (L1 ++ L2) (I1 ++ I2) (S1 ++ S2).
Proof.
  intros [A1 A2 A3 AN A4 A5] [B1 B2 B3 BN B4 B5]. constructor.
  - now rewrite B1, A1, map_app, app_assoc.
  - lia.
  - intros fd H. apply in_app_iff in H as [H|H]; [apply A3 in H|apply B3 in H]; lia.
  - apply (NoDup_app_lt L1 L2 (s_next s1) AN BN); intros z Z; [apply A3 in Z|apply B3 in Z]; lia.
  - now rewrite B4, A4, app_assoc.
  - now rewrite B5, A5, app_assoc.
Qed.
Lemma delta_trans0 s s1 s2 L1 L2 I1 I2 : delta s s1 L1 I1 [] -> delta s1 s2 L2 I2 [] -> delta s s2 (L1 ++ L2) (I1 ++ I2) [].
Proof. apply (delta_trans s s1 s2 L1 L2 I1 I2 [] []). Qed.

(** The log only grows by openings, whatever happens. *)
Definition lext (s s' : rst) : Prop := exists L, s_log s' = s_log s ++ map Opened L.
Lemma lext_refl s : lext s s.
Proof. exists []. now rewrite app_nil_r. Qed.
Lemma lext_trans a b c : lext a b -> lext b c -> lext a c.
Proof. intros (L1 & H1) (L2 & H2). exists (L1 ++ L2). now rewrite H2, H1, map_app, app_assoc. Qed.
Lemma delta_lext s s' L It Sb : delta s s' L It Sb -> lext s s'.
Proof. intros D. exists L. apply D. Qed.
Lemma mbind_lext {A B} (m : M A) (f : A -> M B) s s' r :
  mbind m f s = (s', r) -> (forall s1 r1, m s = (s1, r1) -> lext s s1) -> (forall a s1 s2 r2, f a s1 = (s2, r2) -> lext s1 s2) -> lext s s'.
Proof.
  unfold mbind. intros H A1 A2. destruct (m s) as [s1 [a|e]] eqn:E.
  - eapply lext_trans; [eapply A1; reflexivity|]. eapply A2; exact H.
  - injection H as <- <-. eapply A1; reflexivity.
Qed.
Definition plain {A} (m : M A) : Prop := forall s s' r, m s = (s', r) -> lext s s'.
Lemma plain_bind {A B} (m : M A) (f : A -> M B) : plain m -> (forall a, plain (f a)) -> plain (mbind m f).
Proof. intros H1 H2 s s' r H. eapply mbind_lext; [exact H|intros; eapply H1; eauto|intros; eapply H2; eauto]. Qed.
Lemma plain_ret {A} (a : A) : plain (ret a).
Proof. intros s s' r [= <- <-]. apply lext_refl. Qed.
Lemma plain_raise {A} e : plain (@raise A e).
Proof. intros s s' r [= <- <-]. apply lext_refl. Qed.
Lemma plain_modify f : (forall s, s_log (f s) = s_log s) -> plain (modify f).
Proof. intros H s s' r [= <- <-]. exists []. now rewrite H, app_nil_r. Qed.
Lemma plain_check w e : plain (sys_check w e).
Proof. intros s s' r [= <- <-]. exists []. now rewrite app_nil_r. Qed.
Lemma plain_open w : plain (sys_open w).
Proof. intros s s' r. unfold sys_open. destruct (w_ok w (s_sys s)); intros [= <- <-]; [exists [s_next s]|exists []]; cbn; now rewrite ?app_nil_r. Qed.
Lemma plain_pair w : plain (sys_pair w).
Proof. intros s s' r. unfold sys_pair. destruct (w_ok w (s_sys s)); intros [= <- <-]; [exists [s_next s; s_next s + 1]|exists []]; cbn; now rewrite ?app_nil_r. Qed.
Ltac plain := repeat first [apply plain_ret|apply plain_raise|apply plain_check|apply plain_open|apply plain_pair|(apply plain_bind; [|intro])
  |(apply plain_modify; intro; first [reflexivity|repeat match goal with |- context [if ?b then _ else _] => destruct b end; reflexivity])].
Lemma plain_procsub w args : plain (procsub_loop w args).
Proof.
  induction args as [|a args IH]; cbn [procsub_loop]; [plain|]. destruct (is_substitution a).
  - apply plain_bind; [plain|]. intros [rf wf]. destruct (if is_writable a then _ else _); plain. exact IH.
  - plain. exact IH.
Qed.
Lemma plain_input w v cl enc : plain (setup_input w v cl enc).
Proof. destruct v; cbn; plain. - destruct (w_encode w enc s); plain. - destruct r; plain. Qed.
Lemma plain_output w v ap cl wh : plain (setup_output w v ap cl wh).
Proof.
  unfold setup_output. destruct v eqn:EV; try solve [plain];
    (intros s1 s2 rr H; destruct (_ && _); [destruct (eq_redirect _ _)|]);
    repeat match type of H with context [match ?x with _ => _ end] => destruct x end;
    try (injection H as <- <-; exists []; now rewrite app_nil_r).
Qed.
Lemma plain_enter w c : plain (enter_body w c).
Proof.
  unfold enter_body. apply plain_bind.
  { destruct (uses_process_substitution c); [|plain]. unfold setup_process_substitution. apply plain_bind; [apply plain_procsub|].
    intros r. apply plain_bind; [plain|]. intros _. apply plain_bind; [destruct (w_bsd w); plain|]. intros _. plain. }
  intros args. apply plain_bind.
  { unfold setup_redirects. apply plain_bind; [apply plain_input|]. intros i. apply plain_bind; [destruct (_ && _); plain|]. intros _.
    apply plain_bind; [apply plain_output|]. intros h1. apply plain_bind; [apply plain_output|]. intros h2. apply plain_bind; [|intros; plain].
    assert (P : plain (setup_pty1 w (fst i) h1 h2 (o_pty (c_opts c)))).
    { unfold setup_pty1, open_pty. apply plain_bind; [apply plain_bind; [plain|]; intros; apply plain_bind; [destruct (o_pty (c_opts c)); plain|intros; plain]|].
      intros pc. apply plain_bind; [plain|]. intros _. apply plain_bind; [destruct (w_bsd w); plain|]. intros; plain. }
    destruct (o_pty (c_opts c)); [plain| |]; (destruct (o_preexec_fn (c_opts c)); [plain|exact P]). }
  intros hs. apply plain_bind.
  { intros s s' r. unfold setup_pass_fds. destruct (o_pass_fds (c_opts c)); [destruct (s_close_fds s)|destruct (o_pass_fds_close _)]; intros [= <- <-]; exists []; now rewrite app_nil_r. }
  intros _. destruct args as [|exe rest]; [plain|]. destruct (w_no_dirname w exe); [|plain]. destruct (w_which w (c_opts c) exe); plain.
Qed.

(** ** Successful steps, exactly *)
Lemma delta_mod s s' : s_log s' = s_log s -> s_next s' = s_next s -> s_open s' = s_open s -> s_subcmds s' = s_subcmds s -> delta s s' [] [] [].
Proof. intros A B C D. constructor; rewrite ?app_nil_r; auto; try easy; try lia; constructor. Qed.
Lemma delta_items s s' It : s_log s' = s_log s -> s_next s' = s_next s -> s_open s' = s_open s ++ It -> s_subcmds s' = s_subcmds s -> delta s s' [] It [].
Proof. intros A B C D. constructor; rewrite ?app_nil_r; auto; try easy; try lia; constructor. Qed.
Lemma delta_open w s s' fd : sys_open w s = (s', Ok fd) -> delta s s' [fd] [] [] /\ fd = s_next s.
Proof.
  unfold sys_open. destruct (w_ok w (s_sys s)); [|discriminate]. intros [= <- <-]. split; [|reflexivity].
  constructor; cbn; rewrite ?app_nil_r; auto; [lia| |repeat constructor; easy]. intros z [<-|[]]. lia.
Qed.
Lemma delta_pair w s s' rw : sys_pair w s = (s', Ok rw) -> delta s s' [fst rw; snd rw] [] [] /\ rw = (s_next s, s_next s + 1).
Proof.
  unfold sys_pair. destruct (w_ok w (s_sys s)); [|discriminate]. intros [= <- <-]. split; [|reflexivity].
  constructor; cbn; rewrite ?app_nil_r; auto; [lia| |]; [intros z [<-|[<-|[]]]; lia|]. constructor; [intros [Q|[]]; lia|repeat constructor; easy].
Qed.
Lemma delta_check w e s s' r : sys_check w e s = (s', r) -> delta s s' [] [] [].
Proof. intros [= <- <-]. now apply delta_mod. Qed.

Definition item_spec (fd : Z) (L : list Z) (It : list item) (want : list Z) : Prop :=
  cnt fd It = occ fd want /\ cntf fd It = occ fd L.
Lemma closeit s (cl : bool) z : exists L It, delta s (if cl then add_open s [IFd z] else s) L It [] /\ forall fd, 0 <= fd -> item_spec fd L It (closed_int cl (VInt z)).
Proof. destruct cl; [exists [], [IFd z]|exists [], []]; split; try apply delta_refl; try (now apply delta_items); intros; split; cbn; lia. Qed.
Lemma closeit_neg s (cl : bool) z : z < 0 -> exists L It, delta s (if cl then add_open s [IFd z] else s) L It [] /\ forall fd, 0 <= fd -> item_spec fd L It [].
Proof.
  intros N. destruct cl; [exists [], [IFd z]|exists [], []]; split; try apply delta_refl; try (now apply delta_items); intros fd P; split; cbn; try lia.
  destruct (Z.eqb_spec z fd); lia.
Qed.
Lemma noitem s s1 : delta s s1 [] [] [] -> exists L It, delta s s1 L It [] /\ forall fd, 0 <= fd -> item_spec fd L It [].
Proof. intros D. exists [], []. split; [exact D|]. intros; split; reflexivity. Qed.
Lemma pathitem {A} w s s' (k : Z -> A) r : (let* fd := sys_open w in modify (fun s => add_open s [IFile fd]) ;; ret (k fd)) s = (s', Ok r) ->
  exists L It, delta s s' L It [] /\ forall fd, 0 <= fd -> item_spec fd L It [].
Proof.
  intros H. apply mbind_ok in H as (z & s1 & H1 & H). apply mbind_ok in H as ([] & s2 & H2 & H). injection H as <- _. injection H2 as <-.
  apply delta_open in H1 as (D & ->). exists [s_next s], [IFile (s_next s)]. split.
  + apply (delta_trans _ _ _ _ [] [] _ [] [] D). now apply delta_items.
  + intros fd P. split; reflexivity.
Qed.
Lemma closed_int_other cl v : match v with VInt _ => True | _ => closed_int cl v = [] end.
Proof. destruct v, cl; auto; exact I. Qed.
Lemma input_delta w v cl enc s s' r : setup_input w v cl enc s = (s', Ok r) ->
  exists L It, delta s s' L It [] /\ forall fd, 0 <= fd -> item_spec fd L It (closed_int cl v).
Proof.
  pose proof (closed_int_other cl v) as ZZ.
  unfold setup_input. destruct v; try discriminate; intros H; try rewrite ZZ.
  all: try (injection H as <- _; apply noitem, delta_refl).
  - destruct (w_encode w enc s0); [|discriminate]. injection H as <- _. apply noitem, delta_refl.
  - apply (pathitem w s s' (fun fd => (HOpen (VPath p) None fd, None)) r H).
  - apply mbind_ok in H as ([] & s1 & H1 & H). injection H1 as <-. injection H as <- _. apply closeit.
  - destruct r0; try discriminate; try (injection H as <- _; apply noitem, delta_refl);
      (apply mbind_ok in H as ([] & s1 & H1 & H); injection H1 as <-; injection H as <- _; apply closeit_neg; reflexivity).
Qed.
Lemma output_delta w v ap cl wh s s' r : setup_output w v ap cl wh s = (s', Ok r) ->
  exists L It, delta s s' L It [] /\ forall fd, 0 <= fd -> item_spec fd L It (closed_int cl v).
Proof.
  pose proof (closed_int_other cl v) as ZZ.
  unfold setup_output. destruct v eqn:EV; try discriminate; intros H; try rewrite ZZ.
  all: try (apply (pathitem w s s' (fun fd => HOpen v (Some ap) fd) r); rewrite EV; exact H).
  all: destruct (_ && _) in H; [destruct (eq_redirect _ _) eqn:EQ in H; [|discriminate H]|].
  all: try discriminate H.
  all: try (injection H as <- _; apply noitem; now apply delta_mod).
  - injection H as <- _. exists [], []. split; [now apply delta_mod|]. intros fd P. split; [|reflexivity].
    cbn in EQ. destruct cl; cbn; [|reflexivity]. destruct (Z.eqb_spec z fd); [|reflexivity]. lia.
  - injection H as <- _. apply closeit.
  - repeat match type of H with context [match ?x with _ => _ end] => destruct x end; try discriminate H;
      injection H as <- _; try (apply noitem; now apply delta_mod).
    all: first [apply (closeit_neg s true (-2)); reflexivity|apply (closeit_neg s true (-3)); reflexivity].
Qed.

(** Substitutions. *)
Definition b2n (b : bool) : nat := if b then 1%nat else 0%nat.
Lemma mk_command_opts a o c : mk_command a o = Ok c -> c_opts c = o.
Proof. unfold mk_command. destruct a; [discriminate|]. intros H. assert (c = (v :: a, o)) by congruence. now subst. Qed.
Lemma stdin_opts c fd c' : cmd_stdin c (VInt fd) true = Ok c' ->
  o_input (c_opts c') = VInt fd /\ o_input_close (c_opts c') = true /\ o_output (c_opts c') = o_output (c_opts c) /\ o_output_close (c_opts c') = o_output_close (c_opts c)
  /\ o_error (c_opts c') = o_error (c_opts c) /\ o_error_close (c_opts c') = o_error_close (c_opts c) /\ o_pass_fds (c_opts c') = o_pass_fds (c_opts c) /\ o_pass_fds_close (c_opts c') = o_pass_fds_close (c_opts c).
Proof.
  unfold cmd_stdin, set_stdin. destruct (eq_redirect _ _); [discriminate|]. cbn [bind]. intros H. apply mk_command_opts in H. rewrite H. cbn. tauto.
Qed.
Lemma stdout_opts c fd c' : cmd_stdout c (VInt fd) false true = Ok c' ->
  o_output (c_opts c') = VInt fd /\ o_output_close (c_opts c') = true /\ o_input (c_opts c') = o_input (c_opts c) /\ o_input_close (c_opts c') = o_input_close (c_opts c)
  /\ o_error (c_opts c') = o_error (c_opts c) /\ o_error_close (c_opts c') = o_error_close (c_opts c) /\ o_pass_fds (c_opts c') = o_pass_fds (c_opts c) /\ o_pass_fds_close (c_opts c') = o_pass_fds_close (c_opts c).
Proof.
  unfold cmd_stdout, set_stdout. destruct (eq_redirect _ _); [discriminate|]. cbn [bind]. intros H. apply mk_command_opts in H. rewrite H. cbn. tauto.
Qed.
Definition stdin_rest (o : opts) : list Z := closed_int (o_output_close o) (o_output o) ++ closed_int (o_error_close o) (o_error o) ++ (if o_pass_fds_close o then o_pass_fds o else []).
Definition stdout_rest (o : opts) : list Z := closed_int (o_input_close o) (o_input o) ++ closed_int (o_error_close o) (o_error o) ++ (if o_pass_fds_close o then o_pass_fds o else []).
Lemma stdin_closable c fd c' z : cmd_stdin c (VInt fd) true = Ok c' -> occ z (closable (c_opts c')) = (b2n (fd =? z)%Z + occ z (stdin_rest (c_opts c)))%nat.
Proof. intros H. apply stdin_opts in H as (H1 & H2 & H3 & H4 & H5 & H6 & H7 & H8). unfold closable, stdin_rest, b2n. rewrite H1, H2, H3, H4, H5, H6, H7, H8. cbn. now rewrite !occ_app. Qed.
Lemma stdout_closable c fd c' z : cmd_stdout c (VInt fd) false true = Ok c' -> occ z (closable (c_opts c')) = (b2n (fd =? z)%Z + occ z (stdout_rest (c_opts c)))%nat.
Proof.
  intros H. apply stdout_opts in H as (H1 & H2 & H3 & H4 & H5 & H6 & H7 & H8). unfold closable, stdout_rest, b2n. rewrite H1, H2, H3, H4, H5, H6, H7, H8.
  rewrite !occ_app. cbn. lia.
Qed.
Lemma occ_le_closable z o : (occ z (stdin_rest o) <= occ z (closable o))%nat /\ (occ z (stdout_rest o) <= occ z (closable o))%nat.
Proof. unfold stdin_rest, stdout_rest, closable. rewrite !occ_app. lia. Qed.
Lemma last_cmd_snoc l (c : command) : last_cmd (l ++ [c]) = Ok c.
Proof. unfold last_cmd. now rewrite rev_app_distr. Qed.
Lemma sub_counts a fd0 fd sub : is_substitution a = true -> (if is_writable a then sub_stdin a fd0 else sub_stdout a fd0) = Ok sub ->
  (is_pipeline a = false -> sub_occ fd sub = (b2n (fd0 =? fd)%Z + occ fd (sub_closable a))%nat)
  /\ (~ mentions a fd -> (fd <> fd0 -> sub_occ fd sub = 0%nat) /\ (is_pipeline a = true -> is_writable a = false -> sub_occ fd sub = b2n (fd0 =? fd)%Z)).
Proof.
  intros IS H. destruct a as [| | | | | | | | | | | | | | | | | | | | | |args o|p]; try discriminate IS; cbn [is_pipeline].
  - cbn [is_writable] in H. assert (E : sub_occ fd sub = (b2n (fd0 =? fd)%Z + occ fd (sub_closable (VCmd args o)))%nat).
    { cbn [sub_closable]. destruct (o_writable o).
      + cbn [sub_stdin] in H. destruct (cmd_stdin (args, o) (VInt fd0) true) as [c'|] eqn:E; [|discriminate H]. destruct c' as [a' o']. injection H as <-.
        unfold sub_occ. cbn [value_options]. change o' with (c_opts (a', o')). rewrite (stdin_closable _ _ _ fd E). reflexivity.
      + cbn [sub_stdout] in H. destruct (cmd_stdout (args, o) (VInt fd0) false true) as [c'|] eqn:E; [|discriminate H]. destruct c' as [a' o']. injection H as <-.
        unfold sub_occ. cbn [value_options]. change o' with (c_opts (a', o')). rewrite (stdout_closable _ _ _ fd E). reflexivity. }
    split; [intros _; exact E|]. intros NM. split; [|discriminate]. intros NE. rewrite E.
    assert (Z0 : occ fd (closable o) = 0%nat). { apply occ_In. intros Q. apply NM. exists o. split; [reflexivity|exact Q]. }
    destruct (occ_le_closable fd o). apply Z.eqb_neq in NE. rewrite Z.eqb_sym, NE. cbn [b2n sub_closable].
    destruct (o_writable o); [change (_ ++ _ ++ _) with (stdin_rest o)|change (_ ++ _ ++ _) with (stdout_rest o)]; lia.
  - split; [discriminate|]. intros NM.
    assert (NL : forall c, last_cmd p = Ok c -> occ fd (closable (c_opts c)) = 0%nat).
    { intros c E. apply occ_In. intros Q. apply NM. exists (c_opts c). split; [cbn; now rewrite E|exact Q]. }
    destruct (is_writable (VPipe p)) eqn:W.
    + split; [|discriminate]. intros NE. cbn [sub_stdin] in H. unfold pipe_stdin in H. destruct p as [|c rest]; [discriminate H|].
      cbn [first_cmd bind tl] in H. destruct (cmd_stdin c (VInt fd0) true) as [c'|] eqn:E; [|discriminate H]. cbn in H. injection H as <-.
      unfold sub_occ. cbn [value_options]. destruct (last_cmd (c' :: rest)) as [l|] eqn:EL; [|reflexivity].
      destruct rest as [|c2 rest] using rev_ind.
      * injection EL as <-. rewrite (stdin_closable _ _ _ fd E). destruct (occ_le_closable fd (c_opts c)). rewrite (NL c) in * by reflexivity.
        apply Z.eqb_neq in NE. rewrite Z.eqb_sym, NE. cbn [b2n]. lia.
      * clear IHrest. rewrite app_comm_cons, last_cmd_snoc in EL. injection EL as <-. apply NL. rewrite app_comm_cons. apply last_cmd_snoc.
    + cbn [sub_stdout] in H. unfold pipe_stdout in H. destruct (last_cmd p) as [c|] eqn:EL; [|discriminate H]. cbn [bind] in H.
      destruct (cmd_stdout c (VInt fd0) false true) as [c'|] eqn:E; [|discriminate H]. cbn [bind] in H. unfold mk_pipeline in H.
      assert (X : sub = VPipe (but_last p ++ [c'])). { destruct (but_last p ++ [c']); [discriminate H|]. cbn in H. congruence. }
      subst sub. unfold sub_occ. cbn [value_options]. rewrite last_cmd_snoc. rewrite (stdout_closable _ _ _ fd E).
      destruct (occ_le_closable fd (c_opts c)). rewrite (NL c) in * by reflexivity. split; [|intros _ _; lia].
      intros NE. apply Z.eqb_neq in NE. rewrite Z.eqb_sym, NE. cbn [b2n]. lia.
Qed.
Lemma sub_closable_nomention a fd : ~ mentions a fd -> occ fd (sub_closable a) = 0%nat.
Proof.
  intros NM. destruct a; try reflexivity. assert (Z0 : occ fd (closable o) = 0%nat). { apply occ_In. intros Q. apply NM. exists o. split; [reflexivity|exact Q]. }
  destruct (occ_le_closable fd o). cbn [sub_closable].
  destruct (o_writable o); [change (_ ++ _ ++ _) with (stdin_rest o)|change (_ ++ _ ++ _) with (stdout_rest o)]; lia.
Qed.
Definition writable_pipeline (v : value) : bool := is_pipeline v && is_writable v.
Lemma occ_fresh fd (L : list Z) lo : (forall z, In z L -> lo <= z) -> fd < lo -> occ fd L = 0%nat.
Proof. intros H P. apply occ_In. intros Q. apply H in Q. lia. Qed.
Lemma procsub_delta w args : forall s s' r, 0 <= s_next s -> procsub_loop w args s = (s', Ok r) ->
  exists L Sb, delta s s' L [] Sb
  /\ (forall fd, In fd (snd r) -> In fd L)
  /\ (forall fd, 0 <= fd < s_next s -> (forall a, In a args -> is_pipeline a = true -> ~ mentions a fd) -> subs_occ fd Sb = occ fd (flat_map sub_closable args))
  /\ (forall fd, s_next s <= fd -> (forall a, In a args -> ~ mentions a fd /\ writable_pipeline a = false) -> occ fd L = (occ fd (snd r) + subs_occ fd Sb)%nat).
Proof.
  induction args as [|a args IH]; intros s s' r P H; cbn [procsub_loop] in H.
  { injection H as <- <-. exists [], []. split; [apply delta_refl|]. cbn. auto. }
  destruct (is_substitution a) eqn:IS.
  - apply mbind_ok in H as (rw & s1 & H1 & H). apply delta_pair in H1 as (D1 & ->). cbv beta iota zeta in H. cbn [fst snd] in D1.
    remember (if is_writable a then sub_stdin a (s_next s) else sub_stdout a (s_next s + 1)) as q eqn:Q. destruct q as [sub|]; [|discriminate H].
    apply mbind_ok in H as ([] & s2 & H2 & H). injection H2 as <-. apply mbind_ok in H as (r' & s3 & H3 & H). injection H as <- <-.
    assert (N1 : s_next s + 2 <= s_next s1) by (pose proof (d_fresh _ _ _ _ _ D1 (s_next s + 1)) as F; cbn in F; lia).
    pose proof H3 as H3'. apply IH in H3 as (L & Sb & D & R & B & C); [|cbn; lia]. cbn [add_subcmd s_next] in B, C.
    set (fd0 := if is_writable a then s_next s else s_next s + 1).
    assert (SQ : (if is_writable a then sub_stdin a fd0 else sub_stdout a fd0) = Ok sub). { unfold fd0. destruct (is_writable a); symmetry; exact Q. }
    exists ([s_next s; s_next s + 1] ++ L), (sub :: Sb). split; [|split; [|split]].
    + apply (delta_trans s s1 s3 [s_next s; s_next s + 1] ([] ++ L) [] [] [] ([sub] ++ Sb) D1). apply (delta_trans s1 (add_subcmd s1 sub) s3 [] L [] [] [sub] Sb).
      { constructor; cbn; rewrite ?app_nil_r; auto; try easy; try lia; constructor. } exact D.
    + cbn [snd]. intros fd [<-|Q0]; [|apply in_or_app; right; now apply R]. apply in_or_app. left. destruct (is_writable a); cbn; auto.
    + intros fd F NM. cbn [subs_occ flat_map]. rewrite occ_app, B; [|lia|intros a' Ia; apply NM; now right].
      destruct (sub_counts a fd0 fd sub IS SQ) as [S1 S2]. destruct (is_pipeline a) eqn:IP.
      * rewrite (proj1 (S2 (NM a (or_introl eq_refl) IP))) by (unfold fd0; destruct (is_writable a); lia). rewrite sub_closable_nomention; [reflexivity|]. apply NM; [now left|exact IP].
      * rewrite S1 by reflexivity. assert (E : (fd0 =? fd) = false) by (unfold fd0; destruct (is_writable a); lia). rewrite E. reflexivity.
    + intros fd F NM. rewrite occ_app. cbn [snd occ subs_occ].
      assert (SS : sub_occ fd sub = b2n (fd0 =? fd)).
      { destruct (sub_counts a fd0 fd sub IS SQ) as [S1 S2]. destruct (NM a (or_introl eq_refl)) as [NM1 NM2].
        destruct (is_pipeline a) eqn:IP.
        - apply S2; [exact NM1|reflexivity|]. unfold writable_pipeline in NM2. now rewrite IP in NM2.
        - rewrite S1 by reflexivity. rewrite (sub_closable_nomention _ _ NM1). lia. }
      rewrite SS. destruct (Z_lt_ge_dec fd (s_next s1)) as [LT|GE].
      * assert (O1 : occ fd L = 0%nat). { apply (occ_fresh fd L (s_next s1)); [|lia]. intros z Z. apply (d_fresh _ _ _ _ _ D) in Z. cbn in Z. lia. }
        assert (O2 : occ fd (snd r') = 0%nat). { apply (occ_fresh fd _ (s_next s1)); [|lia]. intros z Z. apply R in Z. apply (d_fresh _ _ _ _ _ D) in Z. cbn in Z. lia. }
        assert (O3 : subs_occ fd Sb = 0%nat).
        { rewrite B; [|lia|intros a' Ia _; apply NM; now right]. clear - NM. induction args as [|x args IH]; [reflexivity|]. cbn. rewrite occ_app, sub_closable_nomention by (apply NM; cbn; auto).
          rewrite IH; [reflexivity|]. intros y Y. apply NM. destruct Y; cbn; auto. }
        unfold fd0, b2n. destruct (is_writable a); destruct (Z.eqb_spec (s_next s) fd), (Z.eqb_spec (s_next s + 1) fd); lia.
      * rewrite C; [|lia|intros a' Ia; apply NM; now right]. unfold fd0, b2n. destruct (is_writable a); destruct (Z.eqb_spec (s_next s) fd), (Z.eqb_spec (s_next s + 1) fd); lia.
  - apply mbind_ok in H as (r' & s3 & H3 & H). injection H as <- <-. apply IH in H3 as (L & Sb & D & R & B & C); [|exact P].
    exists L, Sb. split; [exact D|split; [exact R|split]].
    + intros fd F NM. cbn [flat_map]. assert (E : sub_closable a = []) by (destruct a; try discriminate IS; reflexivity). rewrite E. apply B; [exact F|]. intros a' Ia. apply NM. now right.
    + intros fd F NM. apply C; [exact F|]. intros a' Ia. apply NM. now right.
Qed.

(** The whole of a successful setup. *)
Lemma enter_delta w c s s' r : 0 <= s_next s -> enter_body w c s = (s', Ok r) ->
  exists L It Sb, delta s s' L It Sb
  /\ (forall fd, 0 <= fd < s_next s -> (forall a, In a (c_args c) -> is_pipeline a = true -> ~ mentions a fd) ->
       subs_occ fd Sb = occ fd (flat_map sub_closable (c_args c)) /\ cnt fd It = occ fd (closable (c_opts c)) /\ cntf fd It = 0%nat)
  /\ (forall fd, s_next s <= fd -> o_pty (c_opts c) = PtyOff -> (forall a, In a (c_args c) -> ~ mentions a fd /\ writable_pipeline a = false) ->
       (occ fd L + occ fd (closable (c_opts c)) = cnt fd It + cntf fd It + subs_occ fd Sb)%nat).
Proof.
  intros P H. unfold enter_body in H. apply mbind_ok in H as (args & s1 & H1 & H). apply mbind_ok in H as (hs & s2 & H2 & H).
  apply mbind_ok in H as ([] & s3 & H3 & H).
  assert (E : s3 = s'). { destruct args as [|exe rest]; [discriminate H|]. destruct (w_no_dirname w exe); [destruct (w_which w (c_opts c) exe); [|discriminate H]|]; injection H as <- _; reflexivity. }
  subst s3. clear H.
  assert (A : exists L It Sb, delta s s1 L It Sb
    /\ (forall fd, 0 <= fd < s_next s -> (forall a, In a (c_args c) -> is_pipeline a = true -> ~ mentions a fd) -> subs_occ fd Sb = occ fd (flat_map sub_closable (c_args c)) /\ cnt fd It = 0%nat)
    /\ (forall fd, s_next s <= fd -> (forall a, In a (c_args c) -> ~ mentions a fd /\ writable_pipeline a = false) -> occ fd L = (cnt fd It + subs_occ fd Sb)%nat)
    /\ (forall fd, cntf fd It = 0%nat)).
  { destruct (uses_process_substitution c) eqn:U.
    - unfold setup_process_substitution in H1. apply mbind_ok in H1 as (r0 & t1 & T1 & H1). apply mbind_ok in H1 as ([] & t2 & T2 & H1).
      apply mbind_ok in H1 as ([] & t3 & T3 & H1). injection H1 as <- _. injection T2 as <-.
      apply procsub_delta in T1 as (L & Sb & D & R & B & C); [|exact P].
      assert (D3 : delta (add_open (set_fds_kwds t1 (Some (snd r0)) (Some true)) (map IFd (snd r0))) t3 [] [] []).
      { destruct (w_bsd w); [now apply delta_check in T3|]. injection T3 as <-. apply delta_refl. }
      exists (L ++ [] ++ []), ([] ++ map IFd (snd r0) ++ []), (Sb ++ [] ++ []). split; [|split; [|split]].
      + eapply delta_trans; [exact D|]. eapply delta_trans; [|exact D3]. now apply delta_items.
      + intros fd F NM. rewrite !app_nil_r. cbn [app]. split; [now apply B|]. rewrite cnt_map. apply (occ_fresh fd _ (s_next s)); [|lia].
        intros z Z. apply R in Z. apply (d_fresh _ _ _ _ _ D) in Z. lia.
      + intros fd F NM. rewrite !app_nil_r. cbn [app]. rewrite cnt_map. now apply C.
      + intros fd. cbn [app]. rewrite app_nil_r. apply cntf_map.
    - injection H1 as <- _. exists [], [], []. split; [apply delta_refl|]. split; [|split; reflexivity]. intros fd _ _. split; [|reflexivity].
      cbn. unfold uses_process_substitution in U. induction (c_args c) as [|x l IH]; [reflexivity|]. cbn in U. apply orb_false_iff in U as [U1 U2]. cbn. rewrite occ_app, <- IH by exact U2.
      destruct x; try discriminate U1; reflexivity. }
  destruct A as (L1 & I1 & S1 & D1 & A1 & A2 & A3).
  unfold setup_redirects in H2. apply mbind_ok in H2 as (i & t1 & T1 & H2). apply mbind_ok in H2 as ([] & t2 & T2 & H2).
  apply mbind_ok in H2 as (h1 & t3 & T3 & H2). apply mbind_ok in H2 as (h2 & t4 & T4 & H2). apply mbind_ok in H2 as (hh & t5 & T5 & H2).
  apply mbind_ok in H2 as ([] & t6 & T6 & H2). injection H2 as <- _. injection T6 as <-.
  apply input_delta in T1 as (L2 & I2 & D2 & Q2). apply output_delta in T3 as (L3 & I3 & D3 & Q3). apply output_delta in T4 as (L4 & I4 & D4 & Q4).
  assert (D2' : delta t1 t2 [] [] []). { destruct (_ && _); injection T2 as <-; now apply delta_mod. }
  assert (D5 : exists L5 I5, delta t4 t5 L5 I5 [] /\ (forall fd, cnt fd I5 = 0%nat) /\ (forall fd, (cntf fd I5 <= occ fd L5)%nat) /\ (o_pty (c_opts c) = PtyOff -> L5 = [] /\ I5 = [])).
  { assert (PT : setup_pty1 w (fst i) h1 h2 (o_pty (c_opts c)) t4 = (t5, Ok hh) -> exists L5 I5, delta t4 t5 L5 I5 [] /\ (forall fd, cnt fd I5 = 0%nat) /\ (forall fd, (cntf fd I5 <= occ fd L5)%nat)).
    { intros T. unfold setup_pty1, open_pty in T. apply mbind_ok in T as (pc & u1 & U1 & T). apply mbind_ok in U1 as (pc' & u0 & U0 & U1).
      apply mbind_ok in U1 as ([] & u2 & U2 & U1). apply mbind_ok in U1 as ([] & u3 & U3 & U1). injection U1 as -> ->.
      apply mbind_ok in T as ([] & u4 & U4 & T). injection U4 as <-. apply mbind_ok in T as ([] & u5 & U5 & T). apply mbind_ok in T as ([] & u6 & U6 & T). injection T as <- _.
      apply delta_pair in U0 as (E0 & ->).
      assert (E2 : delta u0 u2 [] [] []). { destruct (o_pty (c_opts c)); first [injection U2 as <-; apply delta_refl|now apply delta_check in U2]. }
      apply delta_check in U3. apply delta_check in U6. cbn [fst snd] in *.
      destruct (w_bsd w); injection U5 as <-.
      - exists ([s_next t4; s_next t4 + 1] ++ [] ++ [] ++ [] ++ []), ([] ++ [] ++ [] ++ [] ++ []). split; [|cbn; split; intros; lia].
        eapply delta_trans0; [exact E0|]. eapply delta_trans0; [exact E2|]. eapply delta_trans0; [exact U3|]. eapply delta_trans0; [|exact U6]. now apply delta_mod.
      - exists ([s_next t4; s_next t4 + 1] ++ [] ++ [] ++ [] ++ []), ([] ++ [] ++ [] ++ [IChild (s_next t4 + 1)] ++ []). split; [|cbn; split; intros; lia].
        eapply delta_trans0; [exact E0|]. eapply delta_trans0; [exact E2|]. eapply delta_trans0; [exact U3|]. eapply delta_trans0; [|exact U6]. now apply delta_items. }
    destruct (o_pty (c_opts c)) eqn:EP.
    - injection T5 as <- _. exists [], []. split; [apply delta_refl|]. auto.
    - destruct (o_preexec_fn (c_opts c)); [discriminate T5|]. destruct (PT T5) as (L5 & I5 & X1 & X2 & X3). exists L5, I5. split; [exact X1|]. split; [exact X2|]. split; [exact X3|discriminate].
    - destruct (o_preexec_fn (c_opts c)); [discriminate T5|]. destruct (PT T5) as (L5 & I5 & X1 & X2 & X3). exists L5, I5. split; [exact X1|]. split; [exact X2|]. split; [exact X3|discriminate]. }
  destruct D5 as (L5 & I5 & D5 & C5 & F5 & N5).
  assert (D6 : exists I6, delta (set_input_bytes t5 (snd i)) s' [] I6 [] /\ (forall fd, cnt fd I6 = occ fd (if o_pass_fds_close (c_opts c) then o_pass_fds (c_opts c) else [])) /\ (forall fd, cntf fd I6 = 0%nat)).
  { unfold setup_pass_fds in H3. destruct (o_pass_fds (c_opts c)) as [|z zs].
    - exists []. assert (X : s' = match s_close_fds (set_input_bytes t5 (snd i)) with Some _ => set_input_bytes t5 (snd i) | None => set_fds_kwds (set_input_bytes t5 (snd i)) (s_pass_fds (set_input_bytes t5 (snd i))) (Some (o_close_fds (c_opts c))) end) by congruence.
      subst s'. split; [destruct (s_close_fds _); now apply delta_mod|]. split; [|reflexivity]. intros fd. destruct (o_pass_fds_close (c_opts c)); reflexivity.
    - destruct (o_pass_fds_close (c_opts c)).
      + exists (map IFd (z :: zs)). injection H3 as <-. split; [now apply delta_items|]. split; [intros; apply cnt_map|intros; apply cntf_map].
      + exists []. injection H3 as <-. split; [now apply delta_mod|]. split; reflexivity. }
  destruct D6 as (I6 & D6 & C6 & F6).
  assert (FD : forall b v k p fd, 0 <= fd -> occ fd (closed_int b (from_default v k p)) = occ fd (closed_int b v)).
  { intros b v k p fd _. destruct v; try reflexivity. destruct r0, k, p, b; reflexivity. }
  exists (L1 ++ L2 ++ [] ++ L3 ++ L4 ++ L5 ++ [] ++ []), (I1 ++ I2 ++ [] ++ I3 ++ I4 ++ I5 ++ [] ++ I6), (S1 ++ [] ++ [] ++ [] ++ [] ++ [] ++ [] ++ []).
  split; [|split].
  - eapply delta_trans; [exact D1|]. eapply delta_trans; [exact D2|]. eapply delta_trans; [exact D2'|]. eapply delta_trans; [exact D3|]. eapply delta_trans; [exact D4|].
    eapply delta_trans; [exact D5|]. eapply delta_trans; [|exact D6]. now apply delta_mod.
  - intros fd F NM. destruct (A1 fd F NM) as [B1 B2]. rewrite !app_nil_r. split; [exact B1|].
    destruct (Q2 fd) as [X2 Y2]; [lia|]. destruct (Q3 fd) as [X3 Y3]; [lia|]. destruct (Q4 fd) as [X4 Y4]; [lia|]. rewrite FD in X2, X3, X4 by lia.
    pose proof (d_next _ _ _ _ _ D1). pose proof (d_next _ _ _ _ _ D2). pose proof (d_next _ _ _ _ _ D2'). pose proof (d_next _ _ _ _ _ D3). pose proof (d_next _ _ _ _ _ D4).
    assert (O2 : occ fd L2 = 0%nat) by (apply (occ_fresh fd _ (s_next s1)); [intros z Z; apply (d_fresh _ _ _ _ _ D2) in Z; lia|lia]).
    assert (O3 : occ fd L3 = 0%nat) by (apply (occ_fresh fd _ (s_next t2)); [intros z Z; apply (d_fresh _ _ _ _ _ D3) in Z; lia|lia]).
    assert (O4 : occ fd L4 = 0%nat) by (apply (occ_fresh fd _ (s_next t3)); [intros z Z; apply (d_fresh _ _ _ _ _ D4) in Z; lia|lia]).
    assert (O5 : occ fd L5 = 0%nat) by (apply (occ_fresh fd _ (s_next t4)); [intros z Z; apply (d_fresh _ _ _ _ _ D5) in Z; lia|lia]).
    pose proof (F5 fd). unfold closable. rewrite !cnt_app, !cntf_app, !occ_app, X2, X3, X4, Y2, Y3, Y4, C5, C6, F6, A3, B2. cbn [cnt cntf]. lia.
  - intros fd F PO NM. destruct (N5 PO) as [-> ->]. rewrite !app_nil_r. pose proof (A2 fd F NM) as B1.
    destruct (Q2 fd) as [X2 Y2]; [lia|]. destruct (Q3 fd) as [X3 Y3]; [lia|]. destruct (Q4 fd) as [X4 Y4]; [lia|]. rewrite FD in X2, X3, X4 by lia.
    unfold closable. rewrite !cnt_app, !cntf_app, !occ_app, X2, X3, X4, Y2, Y3, Y4, C6, F6, A3, B1. cbn [cnt cntf occ]. lia.
Qed.

(** ** Closing opens nothing *)
Lemma opens_close_fds fd l log : opens fd (close_fds l log) = opens fd log.
Proof.
  revert log. induction l as [|i l IH]; intros log; [reflexivity|]. cbn [close_fds fold_left]. change (fold_left close_item l ?x) with (close_fds l x). rewrite IH.
  destruct i; cbn; repeat match goal with |- context [if ?b then _ else _] => destruct b end; rewrite ?opens_app; cbn; lia.
Qed.
Lemma opens_cleanups fd l log : opens fd (fold_left (fun l sub => cleanup sub l) l log) = opens fd log.
Proof. revert log. induction l as [|v l IH]; intros log; [reflexivity|]. cbn. rewrite IH. unfold cleanup. destruct (value_options v); [apply opens_close_fds|reflexivity]. Qed.

(** ** Setting up without files, pty and substitutions *)
Definition quiet {A} (m : M A) : Prop := forall s s' r, m s = (s', r) -> s_log s' = s_log s.
Lemma quiet_bind {A B} (m : M A) (f : A -> M B) : quiet m -> (forall a, quiet (f a)) -> quiet (mbind m f).
Proof.
  intros H1 H2 s s' r. unfold mbind. destruct (m s) as [s1 [a|e]] eqn:E; intros H.
  - rewrite (H2 a _ _ _ H). eapply H1; exact E.
  - injection H as <- _. eapply H1; exact E.
Qed.
Lemma quiet_enter w c : uses_process_substitution c = false -> o_pty (c_opts c) = PtyOff ->
  match o_input (c_opts c) with VPath _ | VPathLike _ => False | _ => True end ->
  match o_output (c_opts c) with VPath _ | VPathLike _ => False | _ => True end ->
  match o_error (c_opts c) with VPath _ | VPathLike _ => False | _ => True end -> quiet (enter_body w c).
Proof.
  intros U PO N1 N2 N3. 
  assert (Q0 : forall A (a : A), quiet (ret a)) by (intros A a s s' r [= <- _]; reflexivity).
  assert (Q1 : forall A e, quiet (@raise A e)) by (intros A e s s' r [= <- _]; reflexivity).
  assert (QM : forall f, (forall s, s_log (f s) = s_log s) -> quiet (modify f)) by (intros f Hf s s' r [= <- _]; apply Hf).
  assert (QO : forall v ap cl wh k, match v with VPath _ | VPathLike _ => False | _ => True end -> quiet (setup_output w (from_default v k PtyOff) ap cl wh)).
  { intros v ap cl wh k NP s s' r H. unfold setup_output in H. destruct v as [| | | | | | | | | |rd| | | | | | | | | | | | | ]; try contradiction; try destruct rd; try destruct k; cbn [from_default pty_bool] in H.
    all: repeat match type of H with context [match ?x with _ => _ end] => destruct x end; injection H as <- _; reflexivity. }
  unfold enter_body. rewrite U. apply quiet_bind; [apply Q0|]. intros args. apply quiet_bind.
  { unfold setup_redirects. rewrite PO. apply quiet_bind.
    { intros s s' r H. unfold setup_input in H. destruct (o_input (c_opts c)) as [| | | | | | | | | |rd| | | | | | | | | | | | | ]; try contradiction; try destruct rd; cbn [from_default pty_bool] in H.
      all: unfold mbind, modify, ret, raise in H; repeat match type of H with context [match ?x with _ => _ end] => destruct x end; injection H as <- _; reflexivity. }
    intros i. apply quiet_bind; [destruct (_ && _); [apply QM; reflexivity|apply Q0]|]. intros _.
    apply quiet_bind; [now apply QO|]. intros h1. apply quiet_bind; [now apply QO|]. intros h2. apply quiet_bind; [apply Q0|]. intros hs. apply quiet_bind; [apply QM; reflexivity|]. intros _. apply Q0. }
  intros hs. apply quiet_bind.
  { intros s s' r. unfold setup_pass_fds. destruct (o_pass_fds (c_opts c)); [destruct (s_close_fds s)|destruct (o_pass_fds_close _)]; intros [= <- _]; reflexivity. }
  intros _. destruct args as [|exe rest]; [apply Q1|]. destruct (w_no_dirname w exe); [|apply Q0]. destruct (w_which w (c_opts c) exe); [apply Q0|apply Q1].
Qed.
