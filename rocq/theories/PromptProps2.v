(** Theorems about Prompt: C49, C50, C53, C54. *)
From Verif Require Import PromptSpec Utf8Spec AsyncSpec AsyncProofs HarvestSpec AsyncInv AsyncInv2 RegexProofs
  PromptProofs PromptProofs2 PromptProofs3 PromptProofs4 PromptProofs5 PromptProofs6 PromptProofs7 RunTac PromptProps.
Open Scope Z_scope.

(** ** C49 and C101 *)
Definition c101_full_claim := forall cfg w p q tmo e w' F, in_use cfg w -> used_pattern cfg p = Some q -> sane q -> remaining cfg w F ->
  expect cfg p tmo w (Err e) w' ->
  remaining cfg w' F /\ (e = EOFError -> p_eof (w_x w') = true /\ p_pending (w_x w') = F /\ q F = None).
(** Cancelled after the background task found the prompt. *)
Theorem c101_refuted : ~ c101_full_claim.
Proof.
  intros C. destruct ex_lost as (w' & H & (rest & d & R & ER)).
  destruct (C conf start (Some dollar) dollar None _ w' _ start_use eq_refl (str_sane _ _ dollar_ok) start_rem H) as ((rest' & d' & R' & ER') & _).
  rewrite R in R'. injection R' as <- <-. rewrite <- ER in ER'. discriminate.
Qed.
Print Assumptions c101_refuted.
(** Missing: cancellation after the prompt was found (then exactly the text up to
    the end of the prompt is gone), and a pattern that matches the empty string
    when all of the output has been consumed (EOFError, though it would match). *)
Theorem c101_failures_partial cfg w p q tmo e w' F : in_use cfg w -> used_pattern cfg p = Some q -> sane q -> remaining cfg w F ->
  expect cfg p tmo w (Err e) w' ->
  (remaining cfg w' F \/ (e = CancelledError /\ exists out m F', found_in_call w w' out m /\ F = out ++ m ++ F' /\ remaining cfg w' F'))
  /\ (e = EOFError -> remaining cfg w' F /\ p_eof (w_x w') = true /\ p_pending (w_x w') = F /\ (F = [] \/ q F = None))
  /\ (e = TimeoutError -> remaining cfg w' F).
Proof.
  intros U UP SQ R H. destruct (in_use_ready _ _ U) as (G & RD & _). destruct (expect_spec cfg G _ _ _ _ _ _ _ RD R UP SQ H) as (_ & _ & E). cbn in E.
  split; [destruct e; tauto|]. split; intros ->; [exact E|]. now destruct E.
Qed.
Print Assumptions c101_failures_partial.
(** C49: EOFError and TimeoutError.  EOFError means that the output has ended and
    nothing is left, or the pattern does not match what is left. *)
Theorem c49_kept cfg w p q tmo e w' F : in_use cfg w -> used_pattern cfg p = Some q -> sane q -> remaining cfg w F ->
  expect cfg p tmo w (Err e) w' -> e = EOFError \/ e = TimeoutError ->
  remaining cfg w' F /\ (e = EOFError -> p_eof (w_x w') = true /\ p_pending (w_x w') = F /\ (F = [] \/ q F = None)).
Proof.
  intros U UP SQ R H E. destruct (c101_failures_partial cfg w p q tmo e w' F U UP SQ R H) as (_ & A & B).
  destruct E as [-> | ->]; [destruct (A eq_refl) as (? & ? & ? & ?); auto|]. split; [auto|discriminate].
Qed.
Print Assumptions c49_kept.
(** The same for an exact string: EOFError means that it does not occur. *)
Theorem c49_eof_exact cfg w s p tmo w' F : in_use cfg w -> compile_exact_str s = Some p -> s <> [] -> remaining cfg w F ->
  expect cfg (Some p) tmo w (Err EOFError) w' -> remaining cfg w' F /\ p_eof (w_x w') = true /\ p_pending (w_x w') = F /\ forall k, ~ occurs_at s F k.
Proof.
  intros U CP NE R H. destruct (c101_failures_partial cfg w (Some p) p tmo EOFError w' F U eq_refl (str_sane _ _ CP) R H) as (_ & E & _). destruct (E eq_refl) as (A & B & C & _).
  split; [exact A|]. split; [exact B|]. split; [exact C|]. intros k O. destruct (c47_eof _ _ _ _ _ _ _ U CP R H) as [->|N]; [|now apply (N k)].
  destruct O as (u & v & Q & _). destruct u; [|discriminate]. destruct s; [congruence|discriminate].
Qed.
Print Assumptions c49_eof_exact.
(** "a$b" without "c", in two pieces. *)
Definition cee : pattern := search_from [[99]] 0.
Example c49_applies : in_use conf start /\ compile_exact_str [99] = Some cee /\ exists w', expect conf (Some cee) None start (Err EOFError) w' /\ p_pending (w_x w') = [97; 36; 98].
Proof.
  split; [apply start_use|]. split; [reflexivity|]. eexists. split.
  - all: go. 1: wait_by [feed 1; readev; feed 2; readev; feedeof; pdone 0 (TFail EOFError); pcb 0]. all: go.
  - reflexivity.
Qed.
Example c49_timeout : exists w', expect conf (Some cee) (Some 1) start (Err TimeoutError) w' /\ p_pending (w_x w') = [97] /\ remaining conf w' [97; 36; 98].
Proof.
  eexists. split; [|split].
  - all: go. 1: wait_by [feed 1; readev; WTimer]. all: go. 1: wait_by [pdone 0 TCancelled; pcb 0]. all: go.
  - reflexivity.
  - eexists [36; 98], _. split; reflexivity.
Qed.

(** ** C50 *)
Theorem c50_read_all cfg w tmo w' F r : in_use cfg w -> remaining cfg w F -> read_all cfg tmo w r w' ->
  match r with
  | Ok t => t = F /\ remaining cfg w' [] /\ p_pending (w_x w') = []
  | Err e => remaining cfg w' F /\ e <> EOFError
  end.
Proof.
  intros U R H. destruct (in_use_ready _ _ U) as (G & RD & _). destruct (read_all_spec cfg G _ _ _ _ _ RD R H) as (_ & _ & E). unfold all_read in E. destruct r; tauto.
Qed.
Print Assumptions c50_read_all.
(** command() returns the output up to the prompt found by the same rules as
    expect() (C47, C48), or with allow_eof all the remaining output. *)
Theorem c50_command cfg w txt ending ne p q tmo allow w' F out : in_use cfg w -> used_pattern cfg p = Some q -> sane q -> remaining cfg w F ->
  command cfg txt ending ne p tmo allow w (Ok out) w' ->
  (exists m F', F = out ++ m ++ F' /\ remaining cfg w' F' /\ reported q out m)
  \/ (allow = true /\ out = F /\ remaining cfg w' [] /\ p_pending (w_x w') = [] /\ p_eof (w_x w') = true /\ (F = [] \/ q F = None)).
Proof.
  intros U UP SQ R H. destruct (in_use_ready _ _ U) as (G & RD & _). destruct (command_spec cfg G _ _ _ _ _ _ _ _ _ _ _ RD R UP SQ H) as (_ & [(m & F' & A & B & C)|E]); [left|now right].
  exists m, F'. split; [exact A|]. split; [exact B|]. eexists. exact C.
Qed.
Print Assumptions c50_command.
(** EOFError, without allow_eof: the text is kept. *)
Theorem c50_command_eof cfg w txt ending ne p q tmo allow w' F : in_use cfg w -> used_pattern cfg p = Some q -> sane q -> remaining cfg w F ->
  command cfg txt ending ne p tmo allow w (Err EOFError) w' ->
  remaining cfg w' F /\ p_pending (w_x w') = F /\ p_eof (w_x w') = true /\ (p_eof (w_x w) = true \/ allow = false /\ (F = [] \/ q F = None)).
Proof.
  intros U UP SQ R H. destruct (in_use_ready _ _ U) as (G & RD & _). now destruct (command_spec cfg G _ _ _ _ _ _ _ _ _ _ _ RD R UP SQ H) as (_ & E).
Qed.
Print Assumptions c50_command_eof.
Example c50_applies : exists w', read_all conf None start (Ok [97; 36; 98]) w'.
Proof. eexists. all: go. 1: wait_by [feed 2; readev; feed 1; readev; feedeof; pdone 0 (TValue VNone); pcb 0]. all: go. Qed.
Definition drained : world := mk_world [] (mk_px [] false (make_idec false) [] [97; 36; 98] false None 0 (Some None) None []) [].
Lemma drained_use : in_use conf drained.
Proof.
  exists false, [97; 36; 98], None, [], [97; 36; 98]. split; [apply conf_good|]. split; [|split; [apply start_rem|intros x []]].
  constructor. eapply (idle_step _ _ (EX (PDrain (Some None)))); [reflexivity|constructor].
Qed.
Example c50_command_applies : in_use conf drained /\ exists w', command conf [108] [10] false (Some dollar) None false drained (Ok [97]) w'.
Proof.
  split; [apply drained_use|]. eexists. all: go. 1: wait_by [pdone 0 TCancelled; pcb 0]. all: go. 1: wait_by [feed 2; pdone 1 (TValue (VMatch [97] [36])); pcb 1]. all: go.
Qed.
Example c50_allow_eof : exists w', command conf [108] [10] false (Some cee) None true drained (Ok [97; 36; 98]) w'.
Proof.
  eexists. all: go. 1: wait_by [pdone 0 TCancelled; pcb 0]. all: go. 1: wait_by [feed 3; readev; feedeof; pdone 1 (TFail EOFError); pcb 1]. all: go.
Qed.

(** ** C53 *)
(** The co-process' standard input is broken: drain() raises e, now and later. *)
Definition stdin_broken (w : world) (e : exn) : Prop := p_drain (w_x w) = Some (Some e).
Definition c53_full_claim := forall cfg w txt ending ne tmo w' e r, stdin_broken w e -> send cfg txt ending ne tmo w r w' -> r <> Ok tt.
(** drain() raises BrokenPipeError while the concurrent reader is waiting for
    output: the reader is cancelled and awaited, its CancelledError replaces the
    BrokenPipeError and is not raised by send(). *)
Definition broken_pipe : world := mk_world [] (mk_px [] false (make_idec false) [] [97] false None 0 (Some (Some BrokenPipeError)) None []) [].
Theorem c53_refuted : ~ c53_full_claim.
Proof.
  intros C. assert (H : exists w', send conf (inr [108]) [10] false None broken_pipe (Ok tt) w').
  { eexists. all: go. 1: wait_by [pdone 0 TCancelled; pcb 0]. all: go. }
  destruct H as (w' & H). exact (C conf broken_pipe _ _ _ _ _ BrokenPipeError _ eq_refl H eq_refl).
Qed.
Print Assumptions c53_refuted.
(** Missing: that the error is raised also if the concurrent reader is not done
    (which is false, and nearly always the case): send() returns normally only if
    its background task, instead of failing, ended cancelled; if the task failed
    with the error, send() raises it (or the caller was cancelled). *)
Theorem c53_broken_pipe_partial cfg w txt ending ne tmo r w' e : stdin_broken w e -> send cfg txt ending ne tmo w r w' ->
  exists i, (List.length (w_tasks w) <= i)%nat
  /\ (r = Ok tt -> task_out w' i = Some TCancelled)
  /\ (task_out w' i = Some (TFail e) -> r = Err e \/ r = Err CancelledError).
Proof. apply send_broken. Qed.
Print Assumptions c53_broken_pipe_partial.
(** If the output had ended before, the reader ends at once and the error is raised. *)
Example c53_raised : exists w', send conf (inr [108]) [10] false None
  (mk_world [] (mk_px [] true (make_idec false) [] [] true None 0 (Some (Some BrokenPipeError)) None []) []) (Err BrokenPipeError) w'.
Proof. eexists. all: go. 1: wait_by [rdone; pdone 0 (TFail BrokenPipeError); pcb 0]. all: go. Qed.

(** ** C54 *)
(** What was written to the input, and what was logged. *)
Definition writes (l : list sendev) : list bytes := flat_map (fun e => match e with SWrite d => [d] | _ => [] end) l.
Definition logged (l : list sendev) : list sendev := filter (fun e => match e with SLogWait | SLogHidden | SLogData _ _ => true | _ => false end) l.
Definition polls (l : list sendev) : list bool := flat_map (fun e => match e with SPoll b => [b] | _ => [] end) l.
(** What this call did, oldest first. *)
Definition did (w w' : world) (l : list sendev) : Prop := p_sent (w_x w') = p_sent (w_x w) ++ l.
Lemma repeat_polls k l : writes (repeat (SPoll true) k ++ l) = writes l /\ logged (repeat (SPoll true) k ++ l) = logged l /\ polls (repeat (SPoll true) k ++ l) = repeat true k ++ polls l.
Proof. induction k as [|k (A & B & C)]; [auto|]. unfold writes, logged, polls in *. cbn [repeat app flat_map filter]. rewrite A, B, C. auto. Qed.
(** Anything is written only after the terminal's echo was seen to be off, as the
    last thing looked at; after 120 looks, RuntimeError and nothing is written. *)
Theorem c54_no_echo cfg w txt ending tmo r w' : send cfg txt ending true tmo w r w' ->
  exists l, did w w' l
  /\ (forall l1 d l2, l = l1 ++ SWrite d :: l2 -> send_data cfg txt ending = Some d /\ exists k, (k < 120)%nat /\ polls l1 = repeat true k ++ [false])
  /\ (List.length (polls l) <= 120)%nat
  /\ (polls l = repeat true 120 -> writes l = [])
  /\ (polls l = repeat true 120 -> r = Err (RuntimeError "Timed out: Terminal echo mode remains enabled.") \/ r = Err CancelledError)
  /\ (r = Ok tt -> exists d, writes l = [d] /\ send_data cfg txt ending = Some d).
Proof.
  intros H. destruct (send_sent _ _ _ _ _ _ _ _ H) as (pre & post & S & [(Q & _)|(_ & k & LK & PRE)] & POST); [discriminate|].
  exists (pre ++ post). split; [exact S|].
  assert (NW : forall l1 d l2, (if c_log cfg then [SLogWait] else []) ++ repeat (SPoll true) k = l1 ++ SWrite d :: l2 -> False).
  { intros l1 d l2 E. assert (I : In (SWrite d) ((if c_log cfg then [SLogWait] else []) ++ repeat (SPoll true) k)) by (rewrite E; apply in_or_app; right; now left).
    apply in_app_or in I as [I|I]; [destruct (c_log cfg); [destruct I as [I|[]]; discriminate|destruct I]|apply repeat_spec in I; discriminate]. }
  assert (LOGW : forall l, polls ((if c_log cfg then [SLogWait] else []) ++ l) = polls l /\ writes ((if c_log cfg then [SLogWait] else []) ++ l) = writes l) by (intros l; destruct (c_log cfg); auto).
  destruct PRE as [(-> & -> & RR)|(LT & ->)].
  - assert (POL : polls (((if c_log cfg then [SLogWait] else []) ++ repeat (SPoll true) k) ++ []) = repeat true k /\ writes (((if c_log cfg then [SLogWait] else []) ++ repeat (SPoll true) k) ++ []) = []).
    { rewrite <- app_assoc. destruct (LOGW (repeat (SPoll true) k ++ [])) as (A & B). rewrite A, B. destruct (repeat_polls k []) as (C & _ & D). rewrite C, D. cbn. now rewrite app_nil_r. }
    destruct POL as (POL & WR). split; [|rewrite POL, WR; split; [rewrite repeat_length; exact LK|split; [auto|split]]].
    + intros l1 d l2 E. rewrite app_nil_r in E. now apply NW in E.
    + intros _. destruct RR as [->|(_ & ->)]; auto.
    + intros ->. destruct RR as [Q|(_ & Q)]; discriminate.
  - destruct POST as [(-> & e & ->)|(d & SD & ->)].
    + assert (POL : polls (((if c_log cfg then [SLogWait] else []) ++ repeat (SPoll true) k ++ [SPoll false]) ++ []) = repeat true k ++ [false] /\ writes (((if c_log cfg then [SLogWait] else []) ++ repeat (SPoll true) k ++ [SPoll false]) ++ []) = []).
      { rewrite <- app_assoc. destruct (LOGW ((repeat (SPoll true) k ++ [SPoll false]) ++ [])) as (A & B). rewrite A, B. rewrite app_nil_r. destruct (repeat_polls k [SPoll false]) as (C & _ & D). rewrite C, D. auto. }
      destruct POL as (POL & WR). rewrite POL, WR. split; [|split; [rewrite app_length, repeat_length; cbn; lia|split; [auto|split]]].
      * intros l1 d l2 E. exfalso. rewrite app_nil_r in E. assert (I : In (SWrite d) ((if c_log cfg then [SLogWait] else []) ++ repeat (SPoll true) k ++ [SPoll false])) by (rewrite E; apply in_or_app; right; now left).
        apply in_app_or in I as [I|I]; [destruct (c_log cfg); [destruct I as [I|[]]; discriminate|destruct I]|]. apply in_app_or in I as [I|[I|[]]]; [apply repeat_spec in I|]; discriminate.
      * intros Q. exfalso. assert (I : In false (repeat true 120)) by (rewrite <- Q; apply in_or_app; right; now left). apply repeat_spec in I. discriminate.
      * discriminate.
    + set (post := if c_log cfg then [SLogHidden] else []).
      assert (PW : polls post = [] /\ writes post = []) by (unfold post; destruct (c_log cfg); auto). destruct PW as (PP & PW).
      set (pre := (if c_log cfg then [SLogWait] else []) ++ repeat (SPoll true) k ++ [SPoll false]) in *.
      assert (POL : forall l, polls (pre ++ l) = repeat true k ++ false :: polls l /\ writes (pre ++ l) = writes l).
      { intros l. unfold pre. rewrite <- !app_assoc. destruct (LOGW (repeat (SPoll true) k ++ [SPoll false] ++ l)) as (A & B). rewrite A, B. destruct (repeat_polls k ([SPoll false] ++ l)) as (C & _ & D). rewrite C, D. auto. }
      destruct (POL (SWrite d :: post)) as (P1 & W1). rewrite P1, W1. cbn [polls writes flat_map app]. fold (polls post) (writes post). rewrite PP, PW.
      split; [|split; [rewrite app_length, repeat_length; cbn; lia|split; [|split]]].
      * intros l1 d' l2 E.
        assert (NP : ~ In (SWrite d') pre).
        { unfold pre. intros I. apply in_app_or in I as [I|I]; [destruct (c_log cfg); [destruct I as [I|[]]; discriminate|destruct I]|]. apply in_app_or in I as [I|[I|[]]]; [apply repeat_spec in I|]; discriminate. }
        assert (NQ : ~ In (SWrite d') post) by (unfold post; destruct (c_log cfg); [intros [I|[]]; discriminate|intros []]).
        assert (G : forall u, ~ In (SWrite d') u -> forall l1 l2, u ++ SWrite d :: post = l1 ++ SWrite d' :: l2 -> l1 = u /\ d = d').
        { induction u as [|x u IH]; intros NI m1 m2 EE.
          - destruct m1 as [|y m1]; [injection EE as -> _; auto|]. injection EE as _ EE. exfalso. apply NQ. rewrite EE. apply in_or_app. right. now left.
          - destruct m1 as [|y m1]; [injection EE as -> _; exfalso; apply NI; now left|]. injection EE as -> EE. destruct (IH (fun I => NI (or_intror I)) _ _ EE) as (-> & ->). auto. }
        destruct (G pre NP _ _ E) as (-> & <-). split; [exact SD|]. exists k. split; [exact LT|]. destruct (POL []) as (P2 & _). rewrite app_nil_r in P2. exact P2.
      * intros Q. exfalso. assert (I : In false (repeat true 120)) by (rewrite <- Q; apply in_or_app; right; now left). apply repeat_spec in I. discriminate.
      * intros Q. exfalso. assert (I : In false (repeat true 120)) by (rewrite <- Q; apply in_or_app; right; now left). apply repeat_spec in I. discriminate.
      * intros _. exists d. auto.
Qed.
Print Assumptions c54_no_echo.
(** What is logged is one of three things, whatever the text. *)
Theorem c54_log cfg w txt ending tmo r w' : send cfg txt ending true tmo w r w' ->
  exists l, did w w' l /\ (logged l = [] \/ logged l = [SLogWait] \/ logged l = [SLogWait; SLogHidden]).
Proof.
  intros H. destruct (send_sent _ _ _ _ _ _ _ _ H) as (pre & post & S & [(Q & _)|(_ & k & LK & PRE)] & POST); [discriminate|].
  exists (pre ++ post). split; [exact S|]. unfold logged. rewrite filter_app. fold (logged pre) (logged post).
  assert (P : logged pre = if c_log cfg then [SLogWait] else []).
  { destruct PRE as [(-> & _)|(_ & ->)].
    - destruct (repeat_polls k []) as (_ & C & _). rewrite app_nil_r in C. unfold logged in *. rewrite filter_app, C. destruct (c_log cfg); reflexivity.
    - destruct (repeat_polls k [SPoll false]) as (_ & C & _). unfold logged in *. rewrite filter_app, C. destruct (c_log cfg); reflexivity. }
  rewrite P. destruct POST as [(-> & _)|(d & _ & ->)]; destruct (c_log cfg); cbn; auto.
Qed.
Print Assumptions c54_log.
(** Echo is on at the first look and off at the second one. *)
Example c54_applies : exists w', send conf (inr [112; 119]) [10] true None
  (mk_world [] (mk_px [] false (make_idec false) [] [97] false None 0 (Some None) (Some true) []) []) (Ok tt) w'
  /\ p_sent (w_x w') = [SLogWait; SPoll true; SPoll false; SWrite [112; 119; 10]; SLogHidden].
Proof.
  eexists. split.
  - all: go. 1: wait_by [WEnv (EX (PEcho false)) : @wev rval pev]. all: go. 1: wait_by [pdone 0 TCancelled; pcb 0]. all: go.
  - reflexivity.
Qed.
