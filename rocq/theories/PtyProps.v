(** Properties C62 (terminal echo), C63 (pty child descriptor), C76 (terminal
    adapters). *)
From Verif Require Import Base FdModel PtyModel.
Open Scope Z_scope.

(** ** Specification *)
(** termios(3), Linux: ECHO is bit 3 of the local modes, ICANON bit 1. *)
Definition echo_on (t : tty) : bool := Z.testbit (a_lflag (t_attrs t)) 3.
Definition canonical (t : tty) : bool := Z.testbit (a_lflag (t_attrs t)) 1.
(** Everything but the local modes is the same. *)
Definition same_but_lflag (t t' : tty) : Prop :=
  let a := t_attrs t in let a' := t_attrs t' in
  a_iflag a' = a_iflag a /\ a_oflag a' = a_oflag a /\ a_cflag a' = a_cflag a /\ a_ispeed a' = a_ispeed a /\
  a_ospeed a' = a_ospeed a /\ a_cc a' = a_cc a /\ t_rows t' = t_rows t /\ t_cols t' = t_cols t.
(** [t'] is [t] with the echo flag set to [b]. *)
Definition only_echo (b : bool) (t t' : tty) : Prop :=
  same_but_lflag t t' /\ echo_on t' = b /\ forall n, n <> 3 -> Z.testbit (a_lflag (t_attrs t')) n = Z.testbit (a_lflag (t_attrs t)) n.

(** ** Bits *)
Lemma bit_of_power l n : 0 <= n -> negb (Z.land l (2 ^ n) =? 0) = Z.testbit l n.
Proof.
  intros N. destruct (Z.testbit l n) eqn:E.
  - destruct (Z.land l (2 ^ n) =? 0) eqn:Q; auto. apply Z.eqb_eq in Q. assert (X : Z.testbit (Z.land l (2 ^ n)) n = false) by (rewrite Q; apply Z.bits_0).
    rewrite Z.land_spec, E, Z.pow2_bits_true in X; auto.
  - replace (Z.land l (2 ^ n)) with 0; auto. symmetry. apply Z.bits_inj'. intros m M. rewrite Z.land_spec, Z.bits_0.
    destruct (Z.eq_dec m n) as [->|D]; [rewrite E; auto|]. rewrite Z.pow2_bits_false; [apply andb_false_r|congruence].
Qed.
Lemma echo_bit l : negb (Z.land l ECHO =? 0) = Z.testbit l 3.
Proof. apply (bit_of_power l 3). lia. Qed.
Lemma icanon_bit l : (Z.land l ICANON =? 0) = negb (Z.testbit l 1).
Proof. rewrite <- (bit_of_power l 1) by lia. now rewrite negb_involutive. Qed.
Lemma echo_bits n : Z.testbit ECHO n = (n =? 3).
Proof. change ECHO with (2 ^ 3). destruct (Z.eqb_spec n 3) as [->|D]; [reflexivity|]. apply Z.pow2_bits_false. congruence. Qed.
Lemma tput_same m fd t : tput m fd t fd = Some t.
Proof. unfold tput. now rewrite Z.eqb_refl. Qed.
Lemma tput_other m fd t x : x <> fd -> tput m fd t x = m x.
Proof. unfold tput. intros N. destruct (Z.eqb_spec x fd); congruence. Qed.

(** ** C62 *)
(** Reading gives the flag. *)
Theorem c62_get m fd t : m fd = Some t -> get_term_echo m fd = Ok (echo_on t).
Proof. intros E. unfold get_term_echo, tcgetattr. rewrite E. cbn. now rewrite echo_bit. Qed.
(** Setting changes the flag only, and nothing at all (no tcsetattr call) if it
    has the value already; other terminals are not touched; on something that is
    not a terminal termios.error is raised and nothing changes. *)
Theorem c62_set m fd b :
  match m fd with
  | None => set_term_echo m fd b = (Err termios_error, m)
  | Some t => exists t',
      fst (set_term_echo m fd b) = Ok tt /\ snd (set_term_echo m fd b) fd = Some t' /\
      only_echo b t t' /\ t_sets t' = (if Bool.eqb b (echo_on t) then t_sets t else S (t_sets t)) /\
      (b = echo_on t -> t' = t) /\
      (forall x, x <> fd -> snd (set_term_echo m fd b) x = m x)
  end.
Proof.
  unfold set_term_echo, tcgetattr, set_term_echo_with, tcsetattr. destruct (m fd) as [t|] eqn:E; [|reflexivity].
  rewrite echo_bit. change (Z.testbit (a_lflag (t_attrs t)) 3) with (echo_on t).
  destruct (Bool.eqb b (echo_on t)) eqn:Q.
  - apply eqb_prop in Q. exists t. unfold only_echo, same_but_lflag. cbn. repeat split; auto.
  - assert (NE : b <> echo_on t) by (intros ->; rewrite eqb_reflx in Q; discriminate).
    destruct b; cbn -[Z.testbit Z.lnot Z.lor Z.land]; rewrite tput_same; eexists; (split; [reflexivity|]); (split; [reflexivity|]);
      (split; [|split; [reflexivity|split; [intros; contradiction|intros x N; apply tput_other; auto]]]);
      unfold only_echo, same_but_lflag, echo_on; cbn -[Z.testbit Z.lnot Z.lor Z.land]; repeat split; auto.
    + rewrite Z.lor_spec, echo_bits. apply orb_true_r.
    + intros n N. rewrite Z.lor_spec, echo_bits. destruct (Z.eqb_spec n 3); [congruence|]. apply orb_false_r.
    + rewrite Z.land_spec, Z.lnot_spec, echo_bits by lia. apply andb_false_r.
    + intros n N. rewrite Z.land_spec. destruct (Z.leb_spec 0 n).
      * rewrite Z.lnot_spec by auto. rewrite echo_bits. destruct (Z.eqb_spec n 3); [congruence|]. apply andb_true_r.
      * rewrite !Z.testbit_neg_r by auto. reflexivity.
Qed.
(** Reading back what was set, through Prompt.echo. *)
Theorem c62_prompt m fd b :
  (forall t, m fd = Some t -> prompt_get_echo (snd (prompt_set_echo m (Some fd) b)) (Some fd) = Ok b) /\
  prompt_get_echo m None = Ok false /\ prompt_set_echo m None b = (Err (RuntimeError "Cannot set echo mode. Not running in a PTY."), m).
Proof.
  split; [|split; reflexivity]. intros t E. pose proof (c62_set m fd b) as H. rewrite E in H. destruct H as (t' & _ & G & O & _).
  unfold prompt_set_echo, prompt_get_echo. rewrite (c62_get _ _ _ G). f_equal. apply O.
Qed.
(** Setting twice is setting once. *)
Theorem c62_idempotent m fd b t :
  m fd = Some t -> forall x, snd (set_term_echo (snd (set_term_echo m fd b)) fd b) x = snd (set_term_echo m fd b) x.
Proof.
  intros E x. pose proof (c62_set m fd b) as H. rewrite E in H. destruct H as (t' & _ & G & O & _).
  pose proof (c62_set (snd (set_term_echo m fd b)) fd b) as H. rewrite G in H. destruct H as (t2 & _ & G2 & _ & _ & S2 & F).
  destruct (Z.eq_dec x fd) as [->|N]; [|apply F; auto]. rewrite G2, G, S2; auto. symmetry. apply O.
Qed.
Print Assumptions c62_get.
Print Assumptions c62_set.
Print Assumptions c62_prompt.
Print Assumptions c62_idempotent.
(** The setter reads and writes in two steps: a change that the child makes in
    between is undone. *)
Definition c62_concurrent_claim : Prop := forall m m' fd b a t t',
  tcgetattr m fd = Ok a -> m' fd = Some t -> snd (set_term_echo_with m' fd b a) fd = Some t' -> only_echo b t t'.
Definition tty0 : tty := mk_tty (mk_attrs 1280 5 191 35387 15 15 (map (fun z => [z]) [3; 28; 127; 21; 4; 0; 1; 0; 17; 19; 26; 0; 18; 15; 23; 22])) 0 0 0.
Theorem c62_concurrent_refuted : ~ c62_concurrent_claim.
Proof.
  intros C. pose (t := mk_tty (cfmakeraw (t_attrs tty0)) 0 0 0). pose (m := fun _ : Z => Some tty0). pose (m' := fun _ : Z => Some t).
  specialize (C m m' 5 false (t_attrs tty0) t _ eq_refl eq_refl eq_refl). destruct C as (_ & _ & C). specialize (C 1 ltac:(lia)). vm_compute in C. discriminate.
Qed.
Print Assumptions c62_concurrent_refuted.
Example c62_nontrivial : echo_on tty0 = true /\ exists t', snd (set_term_echo (fun _ => Some tty0) 5 false) 5 = Some t' /\ echo_on t' = false /\ t_sets t' = 1%nat.
Proof. split; [reflexivity|]. eexists. split; [reflexivity|]. split; reflexivity. Qed.

(** ** C76 *)
Definition size_after (rows cols : Z) (t t' : tty) : Prop :=
  if (rows =? 0) && (cols =? 0) then t_rows t' = t_rows t /\ t_cols t' = t_cols t else t_rows t' = rows /\ t_cols t' = cols.
Definition good_size (rows cols : Z) : Prop := 0 <= rows < 65536 /\ 0 <= cols < 65536.

Lemma size_if_ok m fd rows cols t : m fd = Some t -> good_size rows cols ->
  exists t', size_if m fd rows cols = (Ok tt, snd (size_if m fd rows cols)) /\ snd (size_if m fd rows cols) fd = Some t' /\ t_attrs t' = t_attrs t /\ size_after rows cols t t'.
Proof.
  intros E ((A & B) & C & D). unfold size_if, set_term_size, size_after, in_u16. destruct ((rows =? 0) && (cols =? 0)).
  - exists t. cbn. auto.
  - replace (0 <=? rows) with true by lia. replace (rows <? 65536) with true by lia. replace (0 <=? cols) with true by lia. replace (cols <? 65536) with true by lia.
    cbn. rewrite E. cbn. rewrite tput_same. eexists. split; [reflexivity|]. split; [reflexivity|]. auto.
Qed.
Lemma land_lnot_bit l k n : 0 <= n -> Z.testbit (Z.land l (Z.lnot k)) n = Z.testbit l n && negb (Z.testbit k n).
Proof. intros N. rewrite Z.land_spec, Z.lnot_spec by auto. reflexivity. Qed.
Lemma tty_adapter mk rows cols m fd t :
  (forall a, Z.testbit (a_lflag (mk a)) 1 = false) -> m fd = Some t -> good_size rows cols ->
  exists t', seq_tty (tty_set mk m fd) (fun m => seq_tty (size_if m fd rows cols) (fun m => assert_eof m fd [])) =
      (Ok tt, snd (seq_tty (tty_set mk m fd) (fun m => seq_tty (size_if m fd rows cols) (fun m => assert_eof m fd [])))) /\
    snd (seq_tty (tty_set mk m fd) (fun m => seq_tty (size_if m fd rows cols) (fun m => assert_eof m fd []))) fd = Some t' /\
    t_attrs t' = mk (t_attrs t) /\ size_after rows cols t t'.
Proof.
  intros K E G. unfold tty_set, tcgetattr, tcsetattr. rewrite E. cbn [seq_tty].
  set (m1 := tput m fd _). assert (E1 : m1 fd = Some (mk_tty (mk (t_attrs t)) (t_rows t) (t_cols t) (S (t_sets t)))) by apply tput_same.
  destruct (size_if_ok m1 fd rows cols _ E1 G) as (t2 & Q1 & Q2 & Q3 & Q4). rewrite Q1. cbn [seq_tty].
  unfold assert_eof, get_eof, tcgetattr. rewrite Q2. cbn [bind]. rewrite icanon_bit, Q3. cbn [t_attrs]. rewrite K. cbn.
  exists t2. repeat split; auto.
Qed.
(** A read returns as soon as there is one byte, and waits for it without a
    limit: VMIN (cc[6]) is 1 and VTIME (cc[5]) is 0; the other control characters
    are kept. *)
Definition byte_at_a_time (t t' : tty) : Prop :=
  List.length (a_cc (t_attrs t')) = List.length (a_cc (t_attrs t)) /\
  ((6 < List.length (a_cc (t_attrs t)))%nat -> nth_error (a_cc (t_attrs t')) 6 = Some [1] /\ nth_error (a_cc (t_attrs t')) 5 = Some [0]) /\
  forall n, n <> 5%nat -> n <> 6%nat -> nth_error (a_cc (t_attrs t')) n = nth_error (a_cc (t_attrs t)) n.
Lemma set_nth_spec v l : forall n, List.length (set_nth n v l) = List.length l /\
  ((n < List.length l)%nat -> nth_error (set_nth n v l) n = Some v) /\ forall k, k <> n -> nth_error (set_nth n v l) k = nth_error l k.
Proof.
  induction l as [|x l IH]; intros [|n]; cbn [set_nth List.length].
  - split; [reflexivity|]. split; [lia|reflexivity].
  - split; [reflexivity|]. split; [lia|reflexivity].
  - split; [reflexivity|]. split; [reflexivity|]. intros [|k]; [congruence|reflexivity].
  - destruct (IH n) as (A & B & C). split; [now rewrite A|]. split; [intros L; apply B; lia|]. intros [|k] N; [reflexivity|]. apply C. congruence.
Qed.
Lemma noncanonical_spec l : List.length (noncanonical_cc l) = List.length l /\
  ((6 < List.length l)%nat -> nth_error (noncanonical_cc l) 6 = Some [1] /\ nth_error (noncanonical_cc l) 5 = Some [0]) /\
  forall n, n <> 5%nat -> n <> 6%nat -> nth_error (noncanonical_cc l) n = nth_error l n.
Proof.
  unfold noncanonical_cc. destruct (set_nth_spec [1] l VMIN) as (A & B & C). destruct (set_nth_spec [0] (set_nth VMIN [1] l) VTIME) as (D & E & F).
  unfold VMIN, VTIME in *. split; [congruence|]. split.
  - intros L. split; [rewrite F by discriminate; apply B; exact L|]. apply E. rewrite A. lia.
  - intros n N5 N6. rewrite F by exact N5. apply C. exact N6.
Qed.
(** The flags after raw(), by bit number (Linux): of the input flags IGNBRK,
    BRKINT, IGNPAR, PARMRK, INPCK, ISTRIP, INLCR, IGNCR, ICRNL (0-8), IXON, IXANY,
    IXOFF (10-12) are cleared; OPOST (0) of the output flags; of the control flags
    PARENB (8) is cleared and CS8 (4, 5) set; of the local flags ISIG, ICANON
    (0, 1), ECHO, ECHOE, ECHOK, ECHONL, NOFLSH, TOSTOP (3-8), IEXTEN (15) are
    cleared. All others are kept. *)
Definition cleared (bits : list Z) (before after : Z) : Prop :=
  forall n, 0 <= n -> (In n bits -> Z.testbit after n = false) /\ (~ In n bits -> Z.testbit after n = Z.testbit before n).
Definition raw_flags (t t' : tty) : Prop :=
  cleared [0; 1; 2; 3; 4; 5; 6; 7; 8; 10; 11; 12] (a_iflag (t_attrs t)) (a_iflag (t_attrs t')) /\
  cleared [0] (a_oflag (t_attrs t)) (a_oflag (t_attrs t')) /\
  cleared [0; 1; 3; 4; 5; 6; 7; 8; 15] (a_lflag (t_attrs t)) (a_lflag (t_attrs t')) /\
  (Z.testbit (a_cflag (t_attrs t')) 4 = true /\ Z.testbit (a_cflag (t_attrs t')) 5 = true /\ Z.testbit (a_cflag (t_attrs t')) 8 = false /\
   forall n, 0 <= n -> n <> 4 -> n <> 5 -> n <> 8 -> Z.testbit (a_cflag (t_attrs t')) n = Z.testbit (a_cflag (t_attrs t)) n).
Lemma high_bit k n : 0 <= k < 65536 -> 16 <= n -> Z.testbit k n = false.
Proof.
  intros A B. destruct (Z.eq_dec k 0) as [->|N]; [apply Z.testbit_0_l|]. apply Z.bits_above_log2; [lia|].
  apply Z.log2_lt_pow2; [lia|]. apply Z.lt_le_trans with 65536; [lia|]. change 65536 with (2 ^ 16). apply Z.pow_le_mono_r; lia.
Qed.
Lemma small_cases n : 0 <= n -> n = 0 \/ n = 1 \/ n = 2 \/ n = 3 \/ n = 4 \/ n = 5 \/ n = 6 \/ n = 7 \/ n = 8 \/ n = 9 \/ n = 10 \/ n = 11 \/ n = 12 \/ n = 13 \/ n = 14 \/ n = 15 \/ 16 <= n.
Proof. lia. Qed.
Lemma cleared_land bits k before : 0 <= k < 65536 -> (forall n, 0 <= n < 16 -> Z.testbit k n = existsb (Z.eqb n) bits) -> (forall n, In n bits -> n < 16) ->
  cleared bits before (Z.land before (Z.lnot k)).
Proof.
  intros K A B n N. rewrite land_lnot_bit by exact N.
  assert (T : Z.testbit k n = existsb (Z.eqb n) bits).
  { destruct (Z_lt_dec n 16) as [L|L]; [apply A; lia|]. rewrite high_bit by lia. symmetry. apply not_true_is_false. intros X.
    apply existsb_exists in X as (x & I1 & X). apply B in I1. lia. }
  rewrite T. split.
  - intros I1. replace (existsb (Z.eqb n) bits) with true; [apply andb_false_r|]. symmetry. apply existsb_exists. exists n. split; [exact I1|apply Z.eqb_refl].
  - intros I1. replace (existsb (Z.eqb n) bits) with false; [apply andb_true_r|]. symmetry. apply not_true_is_false. intros X.
    apply existsb_exists in X as (x & I2 & X). apply Z.eqb_eq in X. subst x. tauto.
Qed.
Ltac bits16 := intros n N; destruct (small_cases n ltac:(lia)) as [->|[->|[->|[->|[->|[->|[->|[->|[->|[->|[->|[->|[->|[->|[->|[->|X]]]]]]]]]]]]]]]]; try reflexivity; lia.
Lemma cfmakeraw_flags a r c k t' : t_attrs t' = cfmakeraw a -> raw_flags (mk_tty a r c k) t'.
Proof.
  intros E. unfold raw_flags. rewrite E. unfold cfmakeraw. cbn [t_attrs a_iflag a_oflag a_cflag a_lflag].
  split; [|split; [|split]]; try (apply cleared_land; [unfold RAW_I, RAW_L; lia|bits16|intros n H; cbn in H; lia]).
  rewrite !Z.lor_spec, !land_lnot_bit by lia.
  split; [apply orb_true_r|]. split; [apply orb_true_r|]. split; [change (Z.testbit 304 8) with true; cbn [negb]; rewrite andb_false_r; reflexivity|].
  intros n N N4 N5 N8. rewrite Z.lor_spec, land_lnot_bit by lia. change 304 with (Z.lor (2 ^ 8) (Z.lor (2 ^ 4) (2 ^ 5))). change 48 with (Z.lor (2 ^ 4) (2 ^ 5)).
  rewrite !Z.lor_spec, !Z.pow2_bits_false by auto. cbn. rewrite andb_true_r, orb_false_r. reflexivity.
Qed.
(** raw(): no echo, no line editing, no signals, no output processing, eight
    bits; the assertion does not fail; the size is what was asked for. *)
Theorem c76_raw m fd t rows cols :
  m fd = Some t -> good_size rows cols ->
  exists t', adapter_raw rows cols m fd = (Ok tt, snd (adapter_raw rows cols m fd)) /\ snd (adapter_raw rows cols m fd) fd = Some t' /\
    echo_on t' = false /\ canonical t' = false /\ Z.testbit (a_lflag (t_attrs t')) 0 = false /\ Z.testbit (a_oflag (t_attrs t')) 0 = false /\
    get_eof (snd (adapter_raw rows cols m fd)) fd = Ok [] /\ size_after rows cols t t' /\ byte_at_a_time t t' /\ raw_flags t t'.
Proof.
  intros E G. unfold adapter_raw. destruct (tty_adapter cfmakeraw rows cols m fd t) as (t' & Q1 & Q2 & Q3 & Q4); auto.
  { intros a. cbn -[Z.testbit Z.lnot Z.lor Z.land]. rewrite land_lnot_bit by lia. apply andb_false_r. }
  assert (BT : byte_at_a_time t t') by (unfold byte_at_a_time; rewrite Q3; apply noncanonical_spec).
  assert (RF : raw_flags t t') by (destruct t as [ta tr tc tk]; apply cfmakeraw_flags; exact Q3).
  exists t'. split; auto. split; auto. unfold echo_on, canonical, get_eof, tcgetattr. rewrite Q2. cbn [bind]. rewrite icanon_bit, Q3. cbn -[Z.testbit Z.lnot Z.lor Z.land size_after].
  rewrite !land_lnot_bit by lia. change (Z.testbit RAW_L 3) with true. change (Z.testbit RAW_L 1) with true. change (Z.testbit RAW_L 0) with true. change (Z.testbit 1 0) with true. cbn -[Z.testbit Z.lnot Z.lor Z.land].
  rewrite !andb_false_r. cbn. repeat split; auto; try (apply BT; assumption); try (apply RF; assumption).
Qed.
(** cbreak(): no echo, no line editing; every other flag is kept. *)
Theorem c76_cbreak m fd t rows cols :
  m fd = Some t -> good_size rows cols ->
  exists t', adapter_cbreak rows cols m fd = (Ok tt, snd (adapter_cbreak rows cols m fd)) /\ snd (adapter_cbreak rows cols m fd) fd = Some t' /\
    echo_on t' = false /\ canonical t' = false /\ (forall n, 0 <= n -> n <> 3 -> n <> 1 -> Z.testbit (a_lflag (t_attrs t')) n = Z.testbit (a_lflag (t_attrs t)) n) /\
    a_iflag (t_attrs t') = a_iflag (t_attrs t) /\ a_oflag (t_attrs t') = a_oflag (t_attrs t) /\ a_cflag (t_attrs t') = a_cflag (t_attrs t) /\
    get_eof (snd (adapter_cbreak rows cols m fd)) fd = Ok [] /\ size_after rows cols t t' /\ byte_at_a_time t t'.
Proof.
  intros E G. unfold adapter_cbreak. destruct (tty_adapter cfmakecbreak rows cols m fd t) as (t' & Q1 & Q2 & Q3 & Q4); auto.
  { intros a. cbn -[Z.testbit Z.lnot Z.lor Z.land]. rewrite land_lnot_bit by lia. apply andb_false_r. }
  assert (BT : byte_at_a_time t t') by (unfold byte_at_a_time; rewrite Q3; apply noncanonical_spec).
  exists t'. split; auto. split; auto. unfold echo_on, canonical, get_eof, tcgetattr. rewrite Q2. cbn [bind]. rewrite icanon_bit, Q3. cbn -[Z.testbit Z.lnot Z.lor Z.land size_after].
  rewrite !land_lnot_bit by lia. change (Z.testbit 10 3) with true. change (Z.testbit 10 1) with true. cbn -[Z.testbit Z.lnot Z.lor Z.land]. rewrite !andb_false_r. cbn -[Z.testbit Z.lnot Z.lor Z.land]. repeat split; auto; try (apply BT; assumption).
  intros n N N3 N1. rewrite land_lnot_bit by auto. replace (Z.testbit 10 n) with false; [apply andb_true_r|]. symmetry.
  change 10 with (Z.lor (2 ^ 3) (2 ^ 1)). rewrite Z.lor_spec, !Z.pow2_bits_false; auto.
Qed.
(** cooked(): only the size and (with echo=False) the echo flag change; an
    AssertionError exactly if the terminal has another end-of-file character
    than ^D or is not in canonical mode. *)
Theorem c76_cooked m fd t rows cols echo :
  m fd = Some t -> good_size rows cols ->
  exists t', snd (adapter_cooked rows cols echo m fd) fd = Some t' /\ size_after rows cols t t' /\
    (if echo then t_attrs t' = t_attrs t else only_echo false (mk_tty (t_attrs t) (t_rows t') (t_cols t') 0) t') /\
    fst (adapter_cooked rows cols echo m fd) =
      (if canonical t && text_eqb (nth 4 (a_cc (t_attrs t)) []) [4] then Ok tt else Err AssertionError).
Proof.
  intros E G. unfold adapter_cooked. destruct (size_if_ok m fd rows cols t E G) as (t1 & Q1 & Q2 & Q3 & Q4). rewrite Q1. cbn [seq_tty].
  set (m1 := snd (size_if m fd rows cols)) in *. clearbody m1.
  assert (X : exists t2 m2, (if echo then (Ok tt, m1) else set_term_echo m1 fd false) = (Ok tt, m2) /\ m2 fd = Some t2 /\ t_rows t2 = t_rows t1 /\ t_cols t2 = t_cols t1 /\
    (if echo then t_attrs t2 = t_attrs t else only_echo false (mk_tty (t_attrs t) (t_rows t2) (t_cols t2) 0) t2) /\ canonical t2 = canonical t /\ a_cc (t_attrs t2) = a_cc (t_attrs t)).
  { destruct echo.
    - exists t1, m1. unfold canonical. rewrite Q3. repeat split; auto.
    - pose proof (c62_set m1 fd false) as H. rewrite Q2 in H. destruct H as (t' & H1 & H2 & H3 & _). exists t', (snd (set_term_echo m1 fd false)).
      destruct (set_term_echo m1 fd false) as [r z]. cbn in *. subst r. destruct H3 as ((A1 & A2 & A3 & A4 & A5 & A6 & A7 & A8) & B & C). rewrite Q3 in *.
      split; [reflexivity|]. repeat split; auto; cbn -[Z.testbit canonical]; try congruence. apply (C 1). lia. }
  destruct X as (t2 & m2 & X1 & X2 & X3 & X4 & X5 & X6 & X7). rewrite X1. cbn [seq_tty]. exists t2.
  assert (Y : assert_eof m2 fd [4] = (if canonical t && text_eqb (nth 4 (a_cc (t_attrs t)) []) [4] then Ok tt else Err AssertionError, m2)).
  { unfold assert_eof, get_eof, tcgetattr. rewrite X2. cbn [bind]. rewrite icanon_bit. fold (canonical t2). rewrite X6, X7. unfold VEOF. destruct (canonical t); cbn [negb andb]; [|reflexivity].
    destruct (text_eqb _ [4]); reflexivity. }
  rewrite Y. split; auto. split.
  - unfold size_after in *. destruct ((rows =? 0) && (cols =? 0)); rewrite X3, X4; auto.
  - split; auto.
Qed.
(** A size outside 0..65535 raises struct.error. *)
Theorem c76_bad_size m fd t rows cols :
  m fd = Some t -> ~ good_size rows cols ->
  fst (adapter_raw rows cols m fd) = Err struct_error /\ fst (adapter_cbreak rows cols m fd) = Err struct_error /\ (forall e, fst (adapter_cooked rows cols e m fd) = Err struct_error).
Proof.
  intros E G.
  assert (S : forall m, size_if m fd rows cols = (Err struct_error, m)).
  { intros m0. unfold size_if, set_term_size, in_u16. unfold good_size in G.
    destruct ((rows =? 0) && (cols =? 0)) eqn:Q; [exfalso; apply G; lia|].
    destruct ((0 <=? rows) && (rows <? 65536) && ((0 <=? cols) && (cols <? 65536))) eqn:Q2; auto. exfalso. apply G. lia. }
  unfold adapter_raw, adapter_cbreak, adapter_cooked, tty_set, tcgetattr, tcsetattr. rewrite E. cbn [seq_tty]. rewrite !S. cbn. repeat split; auto.
Qed.
Print Assumptions c76_raw.
Print Assumptions c76_cbreak.
Print Assumptions c76_cooked.
Print Assumptions c76_bad_size.
Example c76_nontrivial : exists t', snd (adapter_cooked 24 80 false (fun _ => Some tty0) 5) 5 = Some t' /\ t_rows t' = 24 /\ t_cols t' = 80 /\ echo_on t' = false /\ canonical t' = true /\
  fst (adapter_cooked 24 80 false (fun _ => Some tty0) 5) = Ok tt.
Proof. eexists. split; [reflexivity|]. repeat split. Qed.

(** ** C63 *)
Definition is_os_close (fd : Z) (c : pcall) : bool := match c with PcOs (OsClose z) => z =? fd | _ => false end.
Definition n_os_close (fd : Z) (l : list pcall) : nat := List.length (filter (is_os_close fd) l).
(** Does the sequence of operations ask for the child descriptor to be closed?
    (The protocol's reference exists once the streams are open.) *)
Fixpoint asks (streams : bool) (l : list pop) : bool :=
  match l with
  | [] => false
  | (OpChildClose | OpClose) :: _ => true
  | OpProtocol :: l => streams || asks streams l
  | OpStreams :: l => asks true l
  end.
Lemma n_os_app fd a b : n_os_close fd (a ++ b) = (n_os_close fd a + n_os_close fd b)%nat.
Proof. unfold n_os_close. rewrite filter_app, app_length. auto. Qed.
Lemma n_os_cons fd c l : n_os_close fd (c :: l) = (n_os_close fd [c] + n_os_close fd l)%nat.
Proof. apply (n_os_app fd [c] l). Qed.
Lemma close_one b fd : 0 <= fd -> fst (fst (close_fds b (AList [FInt fd]))) = [OsClose fd].
Proof. intros H. unfold close_fds. cbn. replace (0 <=? fd) with true by lia. destruct (os_close_fails b fd); reflexivity. Qed.
Lemma closed_stays b l p fd : p_child p = -1 -> fd <> p_parent p -> n_os_close fd (snd (pty_ops b l p)) = 0%nat.
Proof.
  revert p. induction l as [|o l IH]; intros p C N; [reflexivity|]. cbn.
  destruct (pty_op b o p) as [p1 c1] eqn:E. destruct (pty_ops b l p1) as [p2 c2] eqn:E2. cbn [snd]. rewrite n_os_app.
  assert (X : p_child p1 = -1 /\ p_parent p1 = p_parent p /\ n_os_close fd c1 = 0%nat).
  { destruct o; cbn in E; unfold child_close in E; rewrite C in E; cbn in E; try (injection E as <- <-; cbn; auto; fail).
    - destruct (p_ref p); injection E as <- <-; cbn; auto.
    - injection E as <- <-. cbn. repeat split; auto. destruct (p_writer p); [reflexivity|]. unfold close_fds. cbn.
      destruct (0 <=? p_parent p); [|reflexivity]. destruct (os_close_fails b (p_parent p)); cbn; unfold n_os_close; cbn; destruct (Z.eqb_spec (p_parent p) fd); auto; congruence. }
  destruct X as (X1 & X2 & X3). rewrite X3. change c2 with (snd (p2, c2)). rewrite <- E2. apply IH; auto. congruence.
Qed.
(** The child's descriptor is closed exactly once if anything asks for it,
    however often, in whatever order, and whether os.close fails or not. *)
Theorem c63_child_closed_once b l child parent :
  0 <= child -> child <> parent ->
  n_os_close child (snd (pty_ops b l (mk_ptys child false parent false))) = (if asks false l then 1 else 0)%nat.
Proof.
  intros P N.
  assert (X : forall l st w, n_os_close child (snd (pty_ops b l (mk_ptys child st parent w))) = (if asks st l then 1 else 0)%nat).
  { clear l. induction l as [|o l IH]; intros st w; [reflexivity|]. cbn.
    assert (CC : child_close b child = (-1, [OsClose child])) by (unfold child_close; replace (0 <=? child) with true by lia; rewrite close_one; auto).
    assert (AFTER : forall st w, n_os_close child (snd (pty_ops b l (mk_ptys (-1) st parent w))) = 0%nat) by (intros; apply closed_stays; auto).
    assert (ONE : n_os_close child [PcOs (OsClose child)] = 1%nat) by (unfold n_os_close; cbn; rewrite Z.eqb_refl; reflexivity).
    destruct o; cbn; rewrite ?CC; cbn [map].
    - specialize (AFTER st w). destruct (pty_ops b l _) as [p2 c2]. cbn [snd] in *. rewrite n_os_app, ONE, AFTER. reflexivity.
    - destruct st; cbn; rewrite ?CC; cbn [map].
      + specialize (AFTER false w). destruct (pty_ops b l _) as [p2 c2]. cbn [snd] in *. rewrite n_os_cons, ONE, AFTER. reflexivity.
      + specialize (IH false w). destruct (pty_ops b l _) as [p2 c2]. cbn [snd] in *. exact IH.
    - specialize (IH true true). destruct (pty_ops b l _) as [p2 c2]. cbn [snd] in *. exact IH.
    - specialize (AFTER st w). destruct (pty_ops b l _) as [p2 c2]. cbn [snd] in *. rewrite ?n_os_cons, ?n_os_app, ONE, AFTER.
      destruct w; [reflexivity|]. destruct (Z_lt_dec parent 0) as [L|L].
      + unfold close_fds. cbn. replace (0 <=? parent) with false by lia. reflexivity.
      + rewrite close_one by lia. unfold n_os_close. cbn. destruct (Z.eqb_spec parent child); [congruence|]. reflexivity. }
  apply X.
Qed.
Print Assumptions c63_child_closed_once.
(** No other descriptor than the two of the pty is closed. *)
Theorem c63_no_other b l child parent fd :
  fd <> child -> fd <> parent -> n_os_close fd (snd (pty_ops b l (mk_ptys child false parent false))) = 0%nat.
Proof.
  intros N1 N2.
  assert (X : forall l p, (p_child p = child \/ p_child p = -1) -> p_parent p = parent -> n_os_close fd (snd (pty_ops b l p)) = 0%nat).
  { clear l. induction l as [|o l IH]; intros p C Q; [reflexivity|]. cbn. destruct (pty_op b o p) as [p1 c1] eqn:E. destruct (pty_ops b l p1) as [p2 c2] eqn:E2. cbn [snd]. rewrite n_os_app.
    assert (ONE : forall z, z <> fd -> n_os_close fd (map PcOs (fst (fst (close_fds b (AList [FInt z]))))) = 0%nat).
    { intros z Z. unfold close_fds. cbn. destruct (0 <=? z); [|reflexivity]. destruct (os_close_fails b z); unfold n_os_close; cbn; destruct (Z.eqb_spec z fd); auto; congruence. }
    assert (CC : forall z c, child_close b (p_child p) = (z, c) -> (z = child \/ z = -1) /\ n_os_close fd (map PcOs c) = 0%nat).
    { intros z c H. unfold child_close in H. destruct (0 <=? p_child p) eqn:L; injection H as <- <-; [split; auto; apply ONE|split; auto]. lia. }
    assert (Y : (p_child p1 = child \/ p_child p1 = -1) /\ p_parent p1 = parent /\ n_os_close fd c1 = 0%nat).
    { destruct o; cbn in E; try destruct (p_ref p); try destruct (child_close b (p_child p)) as [z c] eqn:H; try destruct (CC z c eq_refl) as (Z1 & Z2); injection E as <- <-; cbn; auto.
      all: repeat split; auto; rewrite n_os_app, Z2; destruct (p_writer p); auto; apply ONE; congruence. }
    destruct Y as (Y1 & Y2 & Y3). rewrite Y3. change c2 with (snd (p2, c2)). rewrite <- E2. apply IH; auto. }
  apply X; auto.
Qed.
Print Assumptions c63_no_other.
(** The parent's descriptor has no such guard: closing a pty without streams
    twice closes the number twice. *)
Definition c63_parent_claim : Prop := forall b l child parent,
  0 <= child -> 0 <= parent -> child <> parent -> (n_os_close parent (snd (pty_ops b l (mk_ptys child false parent false))) <= 1)%nat.
Theorem c63_parent_refuted : ~ c63_parent_claim.
Proof.
  intros C. specialize (C {| os_close_fails := fun _ => false; obj_close_raises := fun _ => None |} [OpClose; OpClose] 7 6 ltac:(lia) ltac:(lia) ltac:(lia)).
  cbn in C. lia.
Qed.
Print Assumptions c63_parent_refuted.
Example c63_nontrivial : n_os_close 7 (snd (pty_ops {| os_close_fails := fun _ => true; obj_close_raises := fun _ => None |} [OpStreams; OpChildClose; OpProtocol; OpClose] (mk_ptys 7 false 6 false))) = 1%nat
  /\ asks false [OpStreams; OpChildClose; OpProtocol; OpClose] = true.
Proof. split; reflexivity. Qed.
