(** The invariant of the whole pipeline, and termination of the event loop
    (C113-C116). *)
From Verif Require Export FlowProofs3.
From Coq Require Import Lia.
Open Scope Z_scope.

Lemma set_eq {A} (f : nat -> A) i x : set f i x i = x.
Proof. unfold set. now rewrite Nat.eqb_refl. Qed.
Lemma set_ne {A} (f : nat -> A) i j x : i <> j -> set f i x j = f j.
Proof. intros H. unfold set. destruct (Nat.eqb_spec j i); [congruence|reflexivity]. Qed.
Lemma set_cases {A} (P : nat -> A -> Prop) (f : nat -> A) i x j : P i x -> (i <> j -> P j (f j)) -> P j (set f i x j).
Proof. intros H1 H2. unfold set. destruct (Nat.eqb_spec j i); [subst; exact H1|apply H2; congruence]. Qed.

Definition ProcOk (c : pst) (pin pout perr : pipe) : Prop :=
  match c with
  | Busy => True
  | Reading => r_open pin = true
  | WritingOut b => b <> [] /\ w_open pout = true
  | WritingErr b => b <> [] /\ w_open perr = true
  | Exited => r_open pin = false /\ w_open pout = false /\ w_open perr = false
  end.
Record GInv (n : nat) (input : list bytes) (olim : option nat) (elim : nat -> option nat) (s : st) : Prop := {
  g_w : WInv input (wr s) (pipes s 0);
  g_out : RInv (out s) (pipes s n);
  g_err : forall i, RInv (errs s i) (epipes s i);
  g_pk : forall i, PipeOk (pipes s i);
  g_epk : forall i, PipeOk (epipes s i);
  g_proc : forall i, (i < n)%nat -> ProcOk (procs s i) (pipes s i) (pipes s (S i)) (epipes s i);
  g_saw : forall i, saw_eof s i = true -> data (pipes s i) = [] /\ w_open (pipes s i) = false;
  g_saw0 : saw_eof s 0 = true -> p_in (pipes s 0) = whole input;
  g_olim : limit (out s) = olim;
  g_elim : forall i, limit (errs s i) = elim i }.

Section Global.
Context (n : nat) (input : list bytes) (olim : option nat) (elim : nat -> option nat) (NZ : n <> O).
Notation G := (GInv n input olim elim).
Ltac st := cbn [wr out errs pipes epipes procs saw_eof up_wr up_out up_err up_proc up_pipe up_epipe up_saw] in *.

Lemma w_step_lim r p r' p' : r_step r p r' p' -> limit r' = limit r.
Proof.
  intros ST. destruct ST; auto.
  - unfold feed_data. rp. cbv zeta. destruct (_ && _); [|reflexivity]. destruct (rclosing _); reflexivity.
  - destruct (got_fields (firstn CHUNK (sbuf r)) (maybe_resume (up_sr (skipn CHUNK (sbuf r)) (seof r) (spaused r) r))) as (_ & _ & _ & _ & _ & _ & ->).
    destruct (resume_fields (up_sr (skipn CHUNK (sbuf r)) (seof r) (spaused r) r)) as (_ & _ & _ & _ & _ & -> & _). reflexivity.
Qed.
Lemma g_loop s s' : G s -> l_step n s s' -> G s'.
Proof.
  intros I ST. destruct I as [I1 I2 I3 I4 I5 I6 I7 I8 I9 I10]. destruct ST as [w p ST|r p ST|i r p LT ST].
  - pose proof (winv_step _ _ _ _ _ I1 ST) as J. destruct (w_step_pipe _ _ _ _ _ I1 ST) as (P1 & P2 & P3 & P4 & P5).
    split; st; auto.
    + rewrite set_ne by congruence. exact I2.
    + intros i. apply (set_cases (fun _ q => PipeOk q)); auto.
    + intros i LT. rewrite (set_ne _ 0 (S i)) by discriminate. specialize (I6 i LT). unfold ProcOk in *. destruct (Nat.eq_dec 0 i) as [<-|NE]; [rewrite set_eq, P1; exact I6|rewrite set_ne by exact NE; exact I6].
    + intros i H. destruct (Nat.eq_dec 0 i) as [<-|NE]; [rewrite set_eq|rewrite set_ne by exact NE; auto]. destruct (I7 _ H) as [D W]. destruct (P4 W) as [-> _]. split; [exact D|]. destruct (w_open p); [rewrite (P3 eq_refl) in W; discriminate|reflexivity].
    + intros H. rewrite set_eq. destruct (I7 _ H) as [D W]. destruct (P4 W) as [_ ->]. auto.
  - pose proof (rinv_step _ _ _ _ I2 ST) as J. destruct (r_step_pipe _ _ _ _ ST) as (P1 & P2 & P3).
    split; st; auto.
    + rewrite set_ne by congruence. exact I1.
    + rewrite set_eq. exact J.
    + intros i. apply (set_cases (fun _ q => PipeOk q)); auto.
    + intros i LT. rewrite (set_ne _ n i) by lia. specialize (I6 i LT). unfold ProcOk in *. destruct (Nat.eq_dec n (S i)) as [E|NE]; [subst n; rewrite set_eq, P2; exact I6|rewrite set_ne by exact NE; exact I6].
    + intros i H. destruct (I7 _ H) as [D W]. destruct (Nat.eq_dec n i) as [<-|NE]; [rewrite set_eq|rewrite set_ne by exact NE; auto]. rewrite P2. split; [|exact W].
      clear - ST D. destruct ST; auto. cbn. rewrite D. apply skipn_nil.
    + intros H. rewrite set_ne by exact NZ. auto.
    + rewrite (w_step_lim _ _ _ _ ST). exact I9.
  - pose proof (rinv_step _ _ _ _ (I3 i) ST) as J. destruct (r_step_pipe _ _ _ _ ST) as (P1 & P2 & P3).
    split; st; auto.
    + intros j. unfold set. destruct (Nat.eqb_spec j i); [subst; exact J|auto].
    + intros j. apply (set_cases (fun _ q => PipeOk q)); auto.
    + intros j LT'. specialize (I6 j LT'). unfold ProcOk in *. destruct (Nat.eq_dec i j) as [<-|NE]; [rewrite set_eq, P2; exact I6|rewrite set_ne by exact NE; exact I6].
    + intros j. unfold set. destruct (Nat.eqb_spec j i); [subst; rewrite (w_step_lim _ _ _ _ ST); auto|auto].
Qed.
(** A process changes one of its pipes and its own state. *)
Lemma g_local s i c pi po pe : G s -> (i < n)%nat ->
  PipeOk pi -> PipeOk po -> PipeOk pe ->
  (WInv input (wr s) (pipes s 0) -> i = 0%nat -> WInv input (wr s) pi) -> (S i = n -> RInv (out s) po) -> RInv (errs s i) pe ->
  ProcOk c pi po pe ->
  (w_open pi = w_open (pipes s i) /\ p_in pi = p_in (pipes s i) /\ (data (pipes s i) = [] -> data pi = [])) ->
  (r_open po = r_open (pipes s (S i)) /\ (w_open (pipes s (S i)) = false -> w_open po = false /\ data po = data (pipes s (S i)))) ->
  G (mk_st (wr s) (out s) (errs s) (set (set (pipes s) i pi) (S i) po) (set (epipes s) i pe) (set (procs s) i c) (saw_eof s)).
Proof.
  intros [I1 I2 I3 I4 I5 I6 I7 I8 I9 I10] LT K1 K2 K3 W R E P (A1 & A2 & A3) (B1 & B2).
  split; st; auto.
  - rewrite set_ne by discriminate. destruct (Nat.eq_dec i 0) as [->|NE]; [rewrite set_eq; auto|now rewrite set_ne by exact NE].
  - destruct (Nat.eq_dec (S i) n) as [<-|NE]; [rewrite set_eq; auto|rewrite !set_ne by lia; exact I2].
  - intros j. unfold set. destruct (Nat.eqb_spec j i); [subst; exact E|auto].
  - intros j. apply (set_cases (fun _ q => PipeOk q)); auto. intros _. apply (set_cases (fun _ q => PipeOk q)); auto.
  - intros j. apply (set_cases (fun _ q => PipeOk q)); auto.
  - intros j LTj. destruct (Nat.eq_dec j i) as [->|NE].
    + rewrite !set_eq, (set_ne _ (S i) i), set_eq by lia. exact P.
    + rewrite (set_ne (procs s)), (set_ne (epipes s)) by congruence. specialize (I6 j LTj).
      assert (X : r_open (set (set (pipes s) i pi) (S i) po j) = r_open (pipes s j)). { destruct (Nat.eq_dec (S i) j) as [<-|NE2]; [rewrite set_eq; exact B1|rewrite set_ne by exact NE2; rewrite set_ne by congruence; reflexivity]. }
      assert (Y : w_open (set (set (pipes s) i pi) (S i) po (S j)) = w_open (pipes s (S j))). { rewrite set_ne by congruence. destruct (Nat.eq_dec i (S j)) as [->|NE2]; [rewrite set_eq; exact A1|rewrite set_ne by exact NE2; reflexivity]. }
      unfold ProcOk in *. destruct (procs s j); rewrite ?X, ?Y; exact I6.
  - intros j H. destruct (I7 j H) as [D Wj]. destruct (Nat.eq_dec (S i) j) as [<-|NE]; [rewrite set_eq|rewrite set_ne by exact NE].
    + destruct (B2 Wj) as [-> ->]. auto.
    + destruct (Nat.eq_dec i j) as [<-|NE2]; [rewrite set_eq, A1; auto|rewrite set_ne by exact NE2; auto].
  - intros H. rewrite set_ne by discriminate. destruct (Nat.eq_dec i 0) as [->|NE]; [rewrite set_eq, A2; auto|rewrite set_ne by exact NE; auto].
Qed.
Lemma g_ext s s' : wr s' = wr s -> out s' = out s -> (forall i, errs s' i = errs s i) -> (forall i, pipes s' i = pipes s i) -> (forall i, epipes s' i = epipes s i) ->
  (forall i, procs s' i = procs s i) -> (forall i, saw_eof s' i = saw_eof s i) -> G s -> G s'.
Proof.
  intros E1 E2 E3 E4 E5 E6 E7 [I1 I2 I3 I4 I5 I6 I7 I8 I9 I10].
  split; intros; rewrite ?E1, ?E2, ?E3, ?E4, ?E5, ?E6, ?E7 in *; auto.
Qed.
Ltac ext := let j := fresh "j" in intros j; unfold set; repeat match goal with |- context[Nat.eqb ?a ?b] => destruct (Nat.eqb_spec a b); subst; try lia end; first [reflexivity | congruence].
Ltac local i c pi po pe := match goal with I : G ?s |- _ => apply (g_ext (mk_st (wr s) (out s) (errs s) (set (set (pipes s) i pi) (S i) po) (set (epipes s) i pe) (set (procs s) i c) (saw_eof s))); [reflexivity|reflexivity|ext|st; ext|st; ext|st; ext|st; ext|apply g_local; auto] end.
Lemma g_proc_step i s s' : G s -> (i < n)%nat -> p_step i s s' -> G s'.
Proof.
  intros I LT ST. pose proof I as [I1 I2 I3 I4 I5 I6 I7 I8 I9 I10]. specialize (I6 i LT).
  assert (RO : S i = n -> RInv (out s) (pipes s (S i))) by (intros ->; exact I2).
  assert (WO : WInv input (wr s) (pipes s 0) -> i = 0%nat -> WInv input (wr s) (pipes s i)) by (intros ? ->; assumption).
  destruct ST as [C R|m C NO LE|C D W|b C W NB|b k C R NO LE SZ|b C R|b C W NB|b k C NO LE SZ|C|C|C|C].
  - local i Reading (pipes s i) (pipes s (S i)) (epipes s i).
  - rewrite C in I6. local i Busy (take m (pipes s i)) (pipes s (S i)) (epipes s i); auto using pk_take, winv_take.
    + exact Logic.I.
    + cbn. repeat split; auto. intros ->. apply skipn_nil.
  - rewrite C in I6. cbn in I6.
    assert (J : G (up_proc i Busy s)). { local i Busy (pipes s i) (pipes s (S i)) (epipes s i). exact Logic.I. }
    destruct J as [J1 J2 J3 J4 J5 J6 J7 J8 J9 J10]. st. split; st; auto.
    + intros j. unfold set. destruct (Nat.eqb_spec j i); [subst; auto|auto].
    + unfold set. destruct (Nat.eqb_spec 0 i); [subst|auto]. intros _. rewrite (iw_input _ _ _ I1 I6). destruct (iw_shut _ _ _ I1 W) as [X Y]. rewrite Y.
      destruct (iw_closed _ _ _ I1 (iw_open _ _ _ I1 I6 X)) as [_ ->]. cbn. now rewrite app_nil_r.
  - local i (WritingOut b) (pipes s i) (pipes s (S i)) (epipes s i). split; assumption.
  - rewrite C in I6. destruct I6 as [NB W]. local i (match skipn k b with [] => Busy | b' => WritingOut b' end) (pipes s i) (put (firstn k b) (pipes s (S i))) (epipes s i).
    + now apply pk_put.
    + intros E. apply rinv_put; auto.
    + destruct (skipn k b) eqn:X; cbn; [exact Logic.I|]. split; [discriminate|exact W].
    + cbn. split; [reflexivity|]. congruence.
  - local i Busy (pipes s i) (pipes s (S i)) (epipes s i). exact Logic.I.
  - local i (WritingErr b) (pipes s i) (pipes s (S i)) (epipes s i). split; assumption.
  - rewrite C in I6. destruct I6 as [NB W]. local i (match skipn k b with [] => Busy | b' => WritingErr b' end) (pipes s i) (pipes s (S i)) (put (firstn k b) (epipes s i)).
    + now apply pk_put.
    + now apply rinv_put.
    + destruct (skipn k b) eqn:X; cbn; [exact Logic.I|]. split; [discriminate|exact W].
  - rewrite C in I6. local i Busy (shut_r (pipes s i)) (pipes s (S i)) (epipes s i); auto using pk_shut_r, winv_shut_r.
  - local i Busy (pipes s i) (shut_w (pipes s (S i))) (epipes s i); auto using pk_shut_w, rinv_shut_w; try exact Logic.I.
  - local i Busy (pipes s i) (pipes s (S i)) (shut_w (epipes s i)); auto using pk_shut_w, rinv_shut_w; try exact Logic.I.
  - local i Exited (shut_r (pipes s i)) (shut_w (pipes s (S i))) (shut_w (epipes s i)); auto using pk_shut_w, pk_shut_r, rinv_shut_w, winv_shut_r. cbn. auto.
Qed.
End Global.
