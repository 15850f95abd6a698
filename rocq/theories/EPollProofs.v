(** Invariants of the epoll watcher (no statement of a property here). *)
From Verif Require Import Base EPollModel.
From Coq Require Import List ZArith Lia Bool.
Import ListNotations.
Local Open Scope nat_scope.

Lemma fset_same {A} (f : nat -> A) i v : fset f i v i = v.
Proof. unfold fset. now rewrite Nat.eqb_refl. Qed.
Lemma fset_other {A} (f : nat -> A) i v j : j <> i -> fset f i v j = f j.
Proof. unfold fset. intros H. destruct (Nat.eqb_spec j i); congruence. Qed.

(** Split on every key comparison. *)
Ltac fs :=
  unfold fset in *;
  repeat match goal with
  | H : context [?a =? ?b] |- _ => destruct (Nat.eqb_spec a b); try subst
  | |- context [?a =? ?b] => destruct (Nat.eqb_spec a b); try subst
  end.

Lemma os_close_eq fd s :
  os_close fd s =
  mk_est (e_proc s)
    (match e_fdt s fd with Some _ => fset (e_fdt s) fd None | None => e_fdt s end)
    (e_dict s)
    (match e_fdt s fd with Some _ => fset (e_reg s) fd false | None => e_reg s end)
    (match e_fdt s fd with Some _ => remove Nat.eq_dec fd (e_ready s) | None => e_ready s end)
    (e_eopen s) (e_self s) (e_pc s) (e_wproc s) (e_w s) (e_close s)
    ((match e_fdt s fd with Some o => LClose o | None => LBadClose fd end) :: e_log s).
Proof. unfold os_close. destruct (e_fdt s fd); destruct s; reflexivity. Qed.

Lemma waitpid_inv pr n r pr' : waitpid pr n r pr' ->
  (pr' = pr /\ (r = None /\ (exists q, pr q = PRun n) \/ r = Some 255%Z /\ forall q, ~ holds_pid (pr q) n))
  \/ exists q s, pr q = PZombie n s /\ r = Some s /\ pr' = fset pr q (PReaped n s).
Proof. destruct 1; [left|right|left]; eauto 6. Qed.

Section Inv.
Context (ordered bad_cb : bool) (rfd wfd efd : nat).
Notation estep := (estep ordered bad_cb rfd efd).
Notation ereach := (ereach ordered bad_cb rfd wfd efd).

(** *** Processes *)
Record IA (s : est) : Prop := {
  a_pid : forall p q n, holds_pid (e_proc s p) n -> holds_pid (e_proc s q) n -> p = q;
  a_proc : forall k, e_w s k <> WNone -> e_proc s (e_wproc s k) <> PNone;
  a_dist : forall j k, e_w s j <> WNone -> e_w s k <> WNone -> e_wproc s j = e_wproc s k -> j = k;
  a_exit : forall p st, In (LExit p st) (e_log s) <-> exists n, e_proc s p = PZombie n st \/ e_proc s p = PReaped n st }.

(** What a step does to the process table. *)
Definition proc_rel (s s' : est) : Prop :=
  e_proc s' = e_proc s
  \/ (exists p n, e_proc s p = PNone /\ (forall q, ~ holds_pid (e_proc s q) n) /\ e_proc s' = fset (e_proc s) p (PRun n) /\ e_log s' = e_log s)
  \/ (exists p n st, e_proc s p = PRun n /\ e_proc s' = fset (e_proc s) p (PZombie n st) /\ e_log s' = LExit p st :: e_log s)
  \/ (exists p n st, e_proc s p = PZombie n st /\ e_proc s' = fset (e_proc s) p (PReaped n st) /\ e_log s' = e_log s).

(** What a step does to the watches. *)
Definition watch_rel (s s' : est) : Prop :=
  (e_wproc s' = e_wproc s /\ (e_w s' = e_w s \/ exists k v, e_w s k <> WNone /\ v <> WNone /\ e_w s' = fset (e_w s) k v))
  \/ (exists k p n, e_w s k = WNone /\ holds_pid (e_proc s p) n /\ (forall j, e_w s j <> WNone -> e_wproc s j <> p)
        /\ e_wproc s' = fset (e_wproc s) k p /\ e_w s' = fset (e_w s) k WOpen /\ e_proc s' = e_proc s /\ e_log s' = e_log s).


Ltac step H := inversion H; subst; clear H; cbn in *; rewrite ?os_close_eq; cbn.

Lemma step_proc s s' : estep s s' -> proc_rel s s'.
Proof.
  intros H. step H; unfold proc_rel; cbn; auto;
  try solve [right; left; eauto 8];
  try solve [right; right; left; eauto 8];
  try solve [match goal with W : waitpid _ _ _ _ |- _ => apply waitpid_inv in W; destruct W as [(-> & _)|(q & z & Q & _ & ->)];
    [left; reflexivity|right; right; right; exists q; eauto 8] end];
  try solve [destruct r; match goal with W : waitpid _ _ _ _ |- _ => apply waitpid_inv in W; destruct W as [(-> & _)|(q & z & Q & _ & ->)];
    [left; reflexivity|right; right; right; exists q; eauto 8] end].
Qed.

Lemma step_watch s s' : estep s s' -> watch_rel s s'.
Proof.
  intros H. step H; unfold watch_rel; cbn;
  try solve [left; split; auto];
  try solve [left; split; auto; right; eexists; eexists; split; [|split; [|reflexivity]]; congruence];
  auto.
  - right. destruct H1 as [n H1]. exists k, p, n. auto 10.
Qed.

Lemma step_log s s' : estep s s' -> e_log s' = e_log s
  \/ (exists p n st, e_proc s p = PRun n /\ e_proc s' = fset (e_proc s) p (PZombie n st) /\ e_log s' = LExit p st :: e_log s)
  \/ (exists x, e_log s' = x :: e_log s /\ (forall p st, x <> LExit p st) /\ e_proc s' = e_proc s).
Proof.
  intros H. step H; auto;
  try solve [right; left; eauto 8];
  try solve [right; right; eexists; split; [reflexivity|split; [congruence|auto]]];
  try solve [right; right; eexists; split; [reflexivity|split; [|auto]]; destruct (e_fdt s _); congruence];
  auto.
Qed.

Lemma IA_init s : e_init rfd wfd efd s -> IA s.
Proof.
  intros (P & D & R & Y & O & S & T & W & C & L & _). split; intros.
  - rewrite P in H. destruct H.
  - congruence.
  - congruence.
  - rewrite L. cbn. split; [tauto|]. intros (n & [Q|Q]); rewrite P in Q; discriminate.
Qed.

Lemma IA_step s s' : IA s -> estep s s' -> IA s'.
Proof.
  intros [A B C D] H. pose proof (step_proc _ _ H) as HP. pose proof (step_watch _ _ H) as HW. pose proof (step_log _ _ H) as HL.
  assert (D0 : forall p st n, In (LExit p st) (e_log s) -> e_proc s p <> PRun n).
  { intros p st n Q E. apply D in Q. destruct Q as (m & [Q|Q]); congruence. }
  split.
  - destruct HP as [->|[(p & n & P0 & P1 & -> & _)|[(p & n & st & P0 & -> & _)|(p & n & st & P0 & -> & _)]]]; auto;
      intros p' q' m; fs; cbn; auto; intros X Y; try tauto;
      first [ solve [eauto]
            | solve [exfalso; subst; eapply P1; eassumption]
            | solve [apply (A p q' m); auto; rewrite P0; auto]
            | solve [apply (A p' p m); auto; rewrite P0; auto] ].
  - assert (MONO : forall p, e_proc s p <> PNone -> e_proc s' p <> PNone).
    { intros q. destruct HP as [->|[(p & n & P0 & P1 & -> & _)|[(p & n & st & P0 & -> & _)|(p & n & st & P0 & -> & _)]]]; auto;
      fs; congruence. }
    intros k. destruct HW as [(-> & [->|(j & v & W0 & V & ->)])|(j & p & n & W0 & P0 & N & -> & -> & PE & _)]; auto.
    + intros W. apply MONO. apply B. fs; auto.
    + intros W. apply MONO. fs.
      * intros Q. rewrite Q in P0. destruct P0.
      * auto.
  - destruct HW as [(-> & [->|(i & v & W0 & V & ->)])|(i & p & n & W0 & P0 & N & -> & -> & PE & _)]; auto.
    + intros j k Wj Wk E. apply C; auto; fs; auto.
    + intros j k Wj Wk E. fs; auto.
      * exfalso. eapply N; eauto.
      * exfalso. eapply N; eauto.
  - intros q st. destruct HP as [PE|[(p & n & P0 & P1 & PE & LE)|[(p & n & st' & P0 & PE & LE)|(p & n & st' & P0 & PE & LE)]]]; rewrite PE.
    + destruct HL as [->|[(p & n & st' & P0 & PE' & LE)|(x & LE & NX & _)]]; [apply D| |].
      * exfalso. rewrite PE in PE'. rewrite PE' in P0. rewrite fset_same in P0. discriminate.
      * rewrite LE. cbn. rewrite D. split; [intros [Q|Q]; [exfalso; eapply NX; eauto|auto]|auto].
    + rewrite LE, D. unfold fset. destruct (Nat.eqb_spec q p) as [->|]; [|tauto].
      split; intros (m & Q); [|destruct Q; discriminate]. rewrite P0 in Q. destruct Q; discriminate.
    + rewrite LE. cbn. rewrite D. unfold fset. destruct (Nat.eqb_spec q p) as [->|Ne].
      * split.
        { intros [[= ->]|(m & Q)]; [eauto|]. rewrite P0 in Q. destruct Q; discriminate. }
        intros (m & [[= <- <-]|Q]); [auto|discriminate].
      * split; [intros [[= -> _]|Q]; [congruence|auto]|auto].
    + rewrite LE, D. unfold fset. destruct (Nat.eqb_spec q p) as [->|Ne]; [|tauto].
      rewrite P0. split; intros (m & [Q|Q]); try discriminate; injection Q as <- <-; eauto.
Qed.
End Inv.
