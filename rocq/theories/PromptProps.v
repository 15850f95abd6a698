(** Theorems about Prompt: C46-C50, C53, C54.  They hold for every output of the
    co-process that can be decoded in the session's encoding, every way it arrives in pieces, every chunk
    size, every sequence of earlier operations, every timeout and cancellation. *)
From Verif Require Import PromptSpec Utf8Spec AsyncSpec AsyncProofs HarvestSpec AsyncInv AsyncInv2 RegexProofs
  PromptProofs PromptProofs2 PromptProofs3 PromptProofs4 PromptProofs5 PromptProofs6 PromptProofs7 RunTac.
Open Scope Z_scope.

(** Concrete settings and runs, used below. *)
Definition conf : settings := {| c_default := None; c_timeout := None; c_chunk := 1024; c_log := true; c_pty_eof := None; c_codec := Utf8; c_errors := Strict |}.
Lemma conf_good : good_settings conf.
Proof. split; [cbn; lia|discriminate]. Qed.
Definition feed (n : nat) : @wev rval pev := WEnv (EX (PFeed n)).
Definition readev : @wev rval pev := WEnv (EX PRead).
Definition pcancel : @wev rval pev := WEnv (EX PCancel).
Definition feedeof : @wev rval pev := WEnv (EX PFeedEof).
Definition rdone : @wev rval pev := WEnv (EX PReaderDone).
Definition pdone (i : nat) (o : tout rval) : @wev rval pev := WEnv (EDone i o).
Definition pcb (i : nat) : @wev rval pev := WCallback i.
Definition dollar : pattern := search_from [[36]] 0.
Lemma dollar_ok : compile_exact_str [36] = Some dollar.
Proof. reflexivity. Qed.
Definition start : world := prompt_world false [97; 36; 98] None.
Lemma start_rem : remaining conf start [97; 36; 98].
Proof. eexists [97; 36; 98], _. split; reflexivity. Qed.
Lemma start_use : in_use conf start.
Proof.
  exists false, [97; 36; 98], None, [], [97; 36; 98]. split; [apply conf_good|]. split; [constructor; constructor|]. split; [apply start_rem|]. intros x [].
Qed.
Lemma str_sane s p : compile_exact_str s = Some p -> sane p.
Proof. intros H. destruct (compile_str s) as (q & E & S & _). rewrite E in H. now injection H as <-. Qed.
(** "a$" arrives in one piece, then "b". *)
Lemma ex_expect : exists w', expect conf (Some dollar) None start (Ok ([97], [36])) w' /\ p_pending (w_x w') = [].
Proof. eexists. split.
  - all: go. 1: wait_by [feed 2; pdone 0 (TValue (VMatch [97] [36])); pcb 0]. all: go.
  - reflexivity.
Qed.
(** In three pieces; cancelled after the prompt was found. *)
Lemma ex_lost : exists w', expect conf (Some dollar) None start (Err CancelledError) w' /\ remaining conf w' [98].
Proof.
  eexists. split.
  - all: go. 1: wait_by [feed 1; readev; feed 1; pdone 0 (TValue (VMatch [97] [36])); pcancel]. all: go. 1: wait_by [pcb 0]. all: go.
  - eexists [98], _. split; reflexivity.
Qed.

(** ** C46 *)
(** Everything handed out, followed by what is still available, is the output. *)
Definition c46_full_claim := forall cfg n src echo tr w' F, good_settings cfg ->
  session cfg (prompt_world n src echo) tr w' -> (forall x, In x tr -> sane_op (fst x)) -> remaining cfg (prompt_world n src echo) F ->
  exists ts F', Forall2 (fun x t => handed_out cfg (fst x) (snd x) t) tr ts /\ F = List.concat ts ++ F' /\ remaining cfg w' F'.

(** When the caller is cancelled after the background task found the prompt,
    the text up to the end of the prompt is lost. *)
Theorem c46_refuted : ~ c46_full_claim.
Proof.
  intros C. destruct ex_lost as (w' & H & (rest & d & R & ER)).
  assert (S : session conf start [(OExpect (Some dollar) None, Err CancelledError)] w').
  { econstructor; [constructor| |constructor; constructor]. cbn [run_op]. eapply (g_bind _ _ _ (Err CancelledError)); [exact H|]. auto. }
  assert (SO : forall x : op * res answer, In x [(OExpect (Some dollar) None, Err CancelledError)] -> sane_op (fst x)).
  { intros x [<-|[]] q Q. cbn in Q. injection Q as <-. apply (str_sane _ _ dollar_ok). }
  destruct (C conf false [97; 36; 98] None _ _ _ conf_good S SO start_rem) as (ts & F' & HT & EF & (rest' & d' & R' & ER')).
  inversion HT as [|? t ? ts' HO HT']; subst. inversion HT'; subst. cbn in HO. subst t. cbn in EF. rewrite R in R'. injection R' as <- <-.
  rewrite <- ER in EF. discriminate.
Qed.
Print Assumptions c46_refuted.

(** Missing: sessions in which an operation is cancelled after its background task
    had found the prompt. *)
Theorem c46_nothing_lost_partial cfg n src echo tr w' F : good_settings cfg ->
  clean_session cfg (prompt_world n src echo) tr w' -> (forall x, In x tr -> sane_op (fst x)) -> remaining cfg (prompt_world n src echo) F ->
  exists ts F', Forall2 (fun x t => handed_out cfg (fst x) (snd x) t) tr ts /\ F = List.concat ts ++ F' /\ remaining cfg w' F'.
Proof. intros G S SO R. exact (proj2 (clean_spec cfg G _ _ _ S SO F (ready_start _ _ _ _) R)). Qed.
Print Assumptions c46_nothing_lost_partial.
(** Even then, what is lost is exactly what the background task had matched. *)
Theorem c46_what_is_lost cfg w o r w' F : in_use cfg w -> sane_op o -> remaining cfg w F -> run_op cfg o w r w' ->
  (exists t F', handed_out cfg o r t /\ F = t ++ F' /\ remaining cfg w' F')
  \/ (r = Err CancelledError /\ exists out m F', found_in_call w w' out m /\ F = out ++ m ++ F' /\ remaining cfg w' F').
Proof.
  intros U SO R H. destruct (in_use_ready _ _ U) as (G & RD & _). destruct (op_spec cfg G _ _ _ _ _ RD R SO H) as (_ & [L|L]); auto.
Qed.
Print Assumptions c46_what_is_lost.
Example c46_applies : exists tr w', clean_session conf start tr w' /\ List.length tr = 2%nat.
Proof.
  destruct ex_expect as (w1 & H & _). exists [(OExpect (Some dollar) None, Ok (AMatch [97] [36])); (OReadPending, Ok (AText (p_pending (w_x w1))))]. eexists. split; [|reflexivity].
  econstructor; [constructor| |intros (Q & _); discriminate|].
  - cbn [run_op]. eapply (g_bind _ _ _ (Ok ([97], [36]))); [exact H|]. apply l_ret.
  - econstructor; [constructor| |intros (Q & _); discriminate|constructor; constructor].
    cbn [run_op]. eapply (g_bind _ _ _ (Ok _)); [|apply l_ret]. eapply (g_bind _ _ _ (Ok _)); [apply l_getx; reflexivity|]. eapply (g_bind _ _ _ (Ok tt)); [apply l_modM; reflexivity|]. apply l_ret.
Qed.

(** ** C47 *)
Lemma app_split (a b c d : text) : a ++ b = c ++ d -> List.length a = List.length c -> a = c /\ b = d.
Proof.
  revert c. induction a as [|x a IH]; intros [|y c] E L; try discriminate; [auto|]. injection E as <- E. injection L as L. destruct (IH _ E L) as (-> & ->). auto.
Qed.
(** expect(s) gives the text before the first occurrence of s in the remaining
    output, and what follows the occurrence is what remains: neither depends on
    how the output was split. *)
Theorem c47_exact_string cfg w s p tmo out m w' F : in_use cfg w -> compile_exact_str s = Some p -> remaining cfg w F ->
  expect cfg (Some p) tmo w (Ok (out, m)) w' ->
  m = s /\ first_at s F (List.length out) /\ exists F', F = out ++ s ++ F' /\ remaining cfg w' F'.
Proof.
  intros U CP R H. destruct (in_use_ready _ _ U) as (G & RD & _). destruct (compile_str s) as (q & E & SQ & FS & _). rewrite CP in E. injection E as <-.
  destruct (expect_spec cfg G (Some p) tmo w _ w' F p RD R eq_refl SQ H) as (_ & _ & F' & EF & RF & PM).
  destruct (FS _ _ _ PM) as (L & (a & b & EA & LA) & NO).
  assert (MS : m = s).
  { destruct (app_split _ _ _ _ EA (eq_sym LA)) as (_ & Q). destruct (app_split _ _ _ _ Q ltac:(lia)) as (E & _). exact E. }
  subst m. split; [reflexivity|]. split; [|eauto]. split.
  - exists out, F'. auto.
  - intros k L' O. apply (NO k L'). rewrite EF, app_assoc in O. apply occurs_prefix in O; [|rewrite app_length; lia]. rewrite app_assoc. now apply occurs_more.
Qed.
Print Assumptions c47_exact_string.
(** Any two runs of expect(s) that find it, from states with the same text left,
    return the same and leave the same. *)
Theorem c47_chunk_independent cfg1 cfg2 w1 w2 s p tmo1 tmo2 out1 m1 out2 m2 w1' w2' F : in_use cfg1 w1 -> in_use cfg2 w2 -> compile_exact_str s = Some p ->
  remaining cfg1 w1 F -> remaining cfg2 w2 F -> expect cfg1 (Some p) tmo1 w1 (Ok (out1, m1)) w1' -> expect cfg2 (Some p) tmo2 w2 (Ok (out2, m2)) w2' ->
  out1 = out2 /\ m1 = m2 /\ exists F', remaining cfg1 w1' F' /\ remaining cfg2 w2' F'.
Proof.
  intros U1 U2 CP R1 R2 H1 H2. destruct (c47_exact_string _ _ _ _ _ _ _ _ _ U1 CP R1 H1) as (-> & (O1 & N1) & F1 & E1 & Q1).
  destruct (c47_exact_string _ _ _ _ _ _ _ _ _ U2 CP R2 H2) as (-> & (O2 & N2) & F2 & E2 & Q2).
  assert (L : List.length out1 = List.length out2).
  { destruct (Nat.lt_trichotomy (List.length out1) (List.length out2)) as [L|[L|L]]; [now destruct (N2 _ L)|exact L|now destruct (N1 _ L)]. }
  assert (E : out1 = out2).
  { rewrite E1 in E2. exact (proj1 (app_split _ _ _ _ E2 L)). }
  subst out2. rewrite E1 in E2. apply app_inv_head in E2. apply app_inv_head in E2. subst F2. split; [reflexivity|]. split; [reflexivity|]. eauto.
Qed.
Print Assumptions c47_chunk_independent.
(** If the string does not occur, expect() does not find it (it waits, or fails
    at the end of the output); at the end of output without a timeout or
    cancellation that is EOFError. *)
Theorem c47_eof cfg w s p tmo w' F : in_use cfg w -> compile_exact_str s = Some p -> remaining cfg w F ->
  expect cfg (Some p) tmo w (Err EOFError) w' -> F = [] \/ forall k, ~ occurs_at s F k.
Proof.
  intros U CP R H. destruct (in_use_ready _ _ U) as (G & RD & _). destruct (compile_str s) as (q & E & SQ & _ & NS). rewrite CP in E. injection E as <-.
  destruct (expect_spec cfg G (Some p) tmo w _ w' F p RD R eq_refl SQ H) as (_ & _ & _ & _ & _ & [->|N]); [now left|right]. intros k. now apply NS.
Qed.
Print Assumptions c47_eof.
Example c47_applies : exists w', in_use conf start /\ remaining conf start [97; 36; 98] /\ expect conf (Some dollar) None start (Ok ([97], [36])) w'.
Proof. destruct ex_expect as (w' & H & _). exists w'. split; [apply start_use|]. split; [apply start_rem|exact H]. Qed.
(** Encoding "utf-16-le", read one byte at a time: U+1F600 is four of them. *)
Definition conf16 : settings := {| c_default := None; c_timeout := None; c_chunk := 1; c_log := true; c_pty_eof := None; c_codec := Utf16le; c_errors := Strict |}.
Definition start16 : world := prompt_world false [61; 216; 0; 222; 36; 0] None.
Example c47_applies_utf16 : exists w', in_use conf16 start16 /\ remaining conf16 start16 [128512; 36] /\ expect conf16 (Some dollar) None start16 (Ok ([128512], [36])) w'.
Proof.
  eexists. assert (R : remaining conf16 start16 [128512; 36]) by (eexists [128512; 36], _; split; reflexivity). split; [|split; [exact R|]].
  - exists false, [61; 216; 0; 222; 36; 0], None, [], [128512; 36]. split; [split; [cbn; lia|discriminate]|]. split; [constructor; constructor|]. split; [exact R|]. intros x [].
  - all: go. 1: wait_by [feed 6; readev; readev; readev; readev; readev; pdone 0 (TValue (VMatch [128512] [36])); pcb 0]. all: go.
Qed.

(** ** C48 *)
Definition c48_full_claim := forall cfg w l p tmo out m w' F, in_use cfg w -> l <> [] -> compile_exact_list l = Some p -> remaining cfg w F ->
  expect cfg (Some p) tmo w (Ok (out, m)) w' -> leftmost_of l F (List.length out) m.
(** ["abc", "ab"] with the output "abc" arriving as "ab", "c": "ab" is found;
    in one piece, "abc" is. *)
Definition two : pattern := search_from [[97; 98; 99]; [97; 98]] 0.
Definition start2 : world := prompt_world false [97; 98; 99] None.
Lemma start2_use : in_use conf start2.
Proof.
  exists false, [97; 98; 99], None, [], [97; 98; 99]. split; [apply conf_good|]. split; [constructor; constructor|]. split; [|intros x []].
  eexists [97; 98; 99], _. split; reflexivity.
Qed.
Lemma ex_pieces : exists w', expect conf (Some two) None start2 (Ok ([], [97; 98])) w'.
Proof. eexists. all: go. 1: wait_by [feed 2; pdone 0 (TValue (VMatch [] [97; 98])); pcb 0]. all: go. Qed.
Lemma ex_whole : exists w', expect conf (Some two) None start2 (Ok ([], [97; 98; 99])) w'.
Proof. eexists. all: go. 1: wait_by [feed 3; pdone 0 (TValue (VMatch [] [97; 98; 99])); pcb 0]. all: go. Qed.
Theorem c48_refuted : ~ c48_full_claim.
Proof.
  intros C. destruct ex_pieces as (w' & H).
  assert (Q : leftmost_of [[97; 98; 99]; [97; 98]] [97; 98; 99] 0 [97; 98]).
  { refine (C conf start2 [[97; 98; 99]; [97; 98]] two None [] [97; 98] w' _ start2_use _ eq_refl _ H); [discriminate|]. eexists [97; 98; 99], _. split; reflexivity. }
  destruct Q as (_ & _ & l1 & l2 & E & N). destruct l1 as [|s1 l1]; [discriminate|]. injection E as <- E. apply (N [97; 98; 99]); [now left|]. exists [], []. auto.
Qed.
Print Assumptions c48_refuted.
(** No string of the list contains another one. *)
Definition independent (l : list text) : Prop := forall a b s, In (a ++ s ++ b) l -> In s l -> a = [] /\ b = [].
(** Missing: lists in which one string occurs inside another one. *)
Theorem c48_strings_partial cfg w l p tmo out m w' F : in_use cfg w -> l <> [] -> independent l -> compile_exact_list l = Some p -> remaining cfg w F ->
  expect cfg (Some p) tmo w (Ok (out, m)) w' ->
  leftmost_of l F (List.length out) m /\ exists F', F = out ++ m ++ F' /\ remaining cfg w' F'.
Proof.
  intros U NE IN CP R H. destruct (in_use_ready _ _ U) as (G & RD & _). destruct (compile_list l NE) as (q & E & SQ & FS & _). rewrite CP in E. injection E as <-.
  destruct (expect_spec cfg G (Some p) tmo w _ w' F p RD R eq_refl SQ H) as (_ & _ & F' & EF & RF & PM).
  destruct (FS _ _ _ PM) as (s & L & (a & b & EA & LA) & NO & l1 & l2 & EL & NS).
  assert (MS : m = s).
  { destruct (app_split _ _ _ _ EA (eq_sym LA)) as (_ & Q). destruct (app_split _ _ _ _ Q ltac:(lia)) as (E & _). exact E. }
  subst m. split; [|eauto]. clear a b EA LA L.
  assert (IS : In s l) by (rewrite EL; apply in_or_app; right; now left).
  assert (OM : occurs_at s F (List.length out)) by (exists out, F'; auto).
  (* an occurrence in F at or before it is inside the part that was searched, or covers it *)
  assert (K : forall s' k, In s' l -> (k <= List.length out)%nat -> occurs_at s' F k -> occurs_at s' (out ++ s ++ p_pending (w_x w')) k \/ s' = s).
  { intros s' k I' LK O. destruct (Nat.le_gt_cases (k + List.length s') (List.length out + List.length s)) as [LE|GT].
    - left. rewrite EF, app_assoc in O. apply occurs_prefix in O; [|rewrite app_length; lia]. rewrite app_assoc. now apply occurs_more.
    - right. destruct (covers _ _ _ _ _ OM O LK ltac:(lia)) as (u & v & Q). subst s'. destruct (IN u v s I' IS) as (-> & ->). cbn. now rewrite app_nil_r. }
  split; [exact OM|]. split.
  - intros s' k I' L O. destruct (K s' k I' ltac:(lia) O) as [O'|Q]; [now apply (NO s' k)|]. subst s'.
    assert (LK : (k + List.length s <= List.length (out ++ s))%nat) by (rewrite app_length; lia).
    apply (NO s k IS L). rewrite EF, app_assoc in O. apply occurs_prefix in O; [|exact LK]. rewrite app_assoc. now apply occurs_more.
  - exists l1, l2. split; [exact EL|]. intros s' I' O. assert (IL : In s' l) by (rewrite EL; apply in_or_app; now left).
    destruct (K s' _ IL (Nat.le_refl _) O) as [O'|Q]; [now apply (NS s' I')|]. subst s'. apply (NS s I'). exists out, (p_pending (w_x w')). auto.
Qed.
Print Assumptions c48_strings_partial.
Example c48_applies : independent [[97; 36]; [98]] /\ exists w' p, compile_exact_list [[97; 36]; [98]] = Some p /\ expect conf (Some p) None start (Ok ([], [97; 36])) w'.
Proof.
  split.
  - intros a b s [Q|[Q|[]]] [<-|[<-|[]]].
    + destruct a as [|? a]; [destruct b; [auto|discriminate]|]. injection Q as <- Q. destruct a; [discriminate|]. injection Q as _ Q. destruct a; discriminate.
    + destruct a as [|? [|? [|? a]]]; discriminate.
    + destruct a as [|? [|? a]]; discriminate.
    + destruct a as [|? a]; [destruct b; [auto|discriminate]|]. injection Q as <- Q. destruct a; discriminate.
  - eexists. eexists. split; [reflexivity|]. all: go. 1: wait_by [feed 2; pdone 0 (TValue (VMatch [] [97; 36])); pcb 0]. all: go.
Qed.
