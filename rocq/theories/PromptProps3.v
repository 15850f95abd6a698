(** More about Prompt: what its timeout is (C49), what text it reads (C50) and
    what "echo is off" means (C54). *)
From Verif Require Import PromptSpec EncodingSpec Utf8Proofs EncodingProofs EncodingProofs2 AsyncSpec AsyncProofs HarvestSpec AsyncInv AsyncInv2 RegexProofs
  PromptProofs PromptProofs2 PromptProofs3 PromptProofs4 PromptProofs5 PromptProofs6 PromptProofs7 RunTac PromptProps PromptProps2.
Open Scope Z_scope.

(** ** C49 *)
(** The timeout of a call: the one given, unless it is missing or 0; else the
    one given to the Prompt. *)
Definition timeout_of (default given : option Z) : option Z :=
  match given with Some z => if Z.eq_dec z 0 then default else Some z | None => default end.
Lemma has_timeout_of cfg tmo : has_timeout cfg tmo = true <-> timeout_of (c_timeout cfg) tmo <> None.
Proof.
  unfold has_timeout, timeout_of. destruct tmo as [z|]; [destruct (Z.eq_dec z 0) as [->|N]|].
  - cbn. destruct (c_timeout cfg); split; intro H; congruence.
  - rewrite (proj2 (Z.eqb_neq z 0) N). split; intro H; congruence.
  - destruct (c_timeout cfg); split; intro H; congruence.
Qed.
(** TimeoutError is raised only if there is one; *)
Theorem c49_no_timeout cfg w p q tmo w' F : in_use cfg w -> used_pattern cfg p = Some q -> sane q -> remaining cfg w F ->
  expect cfg p tmo w (Err TimeoutError) w' -> timeout_of (c_timeout cfg) tmo <> None.
Proof.
  intros U UP SQ R H. destruct (in_use_ready _ _ U) as (G & RD & _). destruct (expect_spec cfg G _ _ _ _ _ _ _ RD R UP SQ H) as (_ & _ & _ & E).
  now apply has_timeout_of.
Qed.
Print Assumptions c49_no_timeout.
(** and if there is one, a co-process that writes nothing does not block the
    call for ever: whatever it would have written later. *)
Theorem c49_timeout_applies cfg n src echo q tmo : timeout_of (c_timeout cfg) tmo <> None ->
  exists w', expect cfg (Some q) tmo (prompt_world n src echo) (Err TimeoutError) w'.
Proof.
  intros T. apply has_timeout_of in T. unfold expect. rewrite T. clear T. eexists.
  all: go. 1: wait_by [WTimer : @wev rval pev]. all: go. 1: wait_by [pdone 0 TCancelled; pcb 0]. all: go.
Qed.
Print Assumptions c49_timeout_applies.
Example c49_timeouts : timeout_of (Some 3) None = Some 3 /\ timeout_of (Some 3) (Some 0) = Some 3 /\ timeout_of None (Some 2) = Some 2
  /\ timeout_of None (Some 0) = None.
Proof. repeat split. Qed.

(** ** C50 *)
(** The text a new Prompt will give: the output decoded as bytes.decode would
    do with all of it (C123, C124 say what that is), with newlines normalised if
    that was asked for.  (Theorems c46_*, c47_* and c50_* say that this text is
    handed out, each part once and in order.) *)
Theorem c50_text_of_the_output cfg n src echo F :
  remaining cfg (prompt_world n src echo) F <-> exists t, decode (c_codec cfg) (c_errors cfg) src = Some t /\ if n then normalized t F else F = t.
Proof.
  unfold remaining, prompt_world, decode. cbn [w_x p_dec p_buf p_src p_pending app]. unfold idec_decode, make_idec. cbn [i_buf i_cr i_normalize app].
  assert (NL : forall t, nl_inc false t true = (nl_replace t, false)) by (intros t; unfold nl_inc; cbn [andb negb]; now rewrite andb_false_r).
  destruct (dec_part (c_codec cfg) (c_errors cfg) src true) as [[t r]|].
  - split.
    + intros (rest & d & H & ->). exists t. split; [reflexivity|]. destruct n; [rewrite NL in H|]; injection H as <- _; [apply nl_replace_norm|reflexivity].
    + intros (t' & [= ->] & N). destruct n; [rewrite NL; apply normalized_fun in N|]; subst; eauto.
  - split; [intros (rest & d & H & _); discriminate|]. intros (t & H & _). discriminate.
Qed.
Print Assumptions c50_text_of_the_output.
(** What the co-process writes in the session's encoding is the text that is
    read, for every codec and every error handler. *)
Theorem c50_text_written cfg n src echo t F : encode (c_codec cfg) Strict t = Some src ->
  remaining cfg (prompt_world n src echo) F <-> if n then normalized t F else F = t.
Proof.
  intros E. apply (decode_encode _ (c_errors cfg)) in E. rewrite c50_text_of_the_output, E. split; [intros (t' & [= ->] & H); exact H|eauto].
Qed.
Print Assumptions c50_text_written.
(** With an error handler other than strict there is always such a text,
    whatever the co-process writes: its characters, and the replacement for each
    ill-formed sequence (Unicode's maximal subparts). *)
Theorem c50_text_replaced cfg n src echo : c_codec cfg <> Utf16le -> c_errors cfg <> Strict -> is_bytes src ->
  exists t, decoded (c_codec cfg) (replacement (c_errors cfg)) src t
  /\ forall F, remaining cfg (prompt_world n src echo) F <-> if n then normalized t F else F = t.
Proof.
  intros K NS B. destruct (decode_decoded _ _ _ K NS B) as (t & E & D). exists t. split; [exact D|].
  intros F. rewrite c50_text_of_the_output, E. split; [intros (t' & [= ->] & H); exact H|eauto].
Qed.
Print Assumptions c50_text_replaced.
Example c50_text_example : remaining conf (prompt_world true [97; 13; 10] None) [97; 10] /\ remaining conf (prompt_world false [97; 13; 10] None) [97; 13; 10].
Proof. split; eexists _, _; split; reflexivity. Qed.
(** "latin-1" and "utf-8 replace" *)
Definition conf_latin : settings := {| c_default := None; c_timeout := None; c_chunk := 1024; c_log := true; c_pty_eof := None; c_codec := Latin1; c_errors := Strict |}.
Definition conf_replace : settings := {| c_default := None; c_timeout := None; c_chunk := 1024; c_log := true; c_pty_eof := None; c_codec := Utf8; c_errors := Replace |}.
Example c50_text_other : remaining conf_latin (prompt_world false [97; 233] None) [97; 233] /\ remaining conf_replace (prompt_world true [97; 233; 13; 10] None) [97; 65533; 10]
  /\ forall F, ~ remaining conf (prompt_world false [97; 233] None) F.
Proof. split; [|split]; [eexists _, _; split; reflexivity|eexists _, _; split; reflexivity|]. intros F (r & d & H & _). vm_compute in H. discriminate. Qed.

(** ** C54 *)
(** The wait at the beginning of send(..., no_echo=True) ends normally only at a
    moment when the terminal does not echo (send writes without another await),
    and at once if it does not echo now; without a terminal it does not wait. *)
Theorem c54_echo_off cfg w r w' : wait_no_echo cfg w r w' ->
  (r = Ok tt -> p_echo (w_x w') <> Some true)
  /\ (p_echo (w_x w) <> Some true -> r = Ok tt /\ w_tasks w' = w_tasks w /\ w_hist w' = w_hist w /\ p_echo (w_x w') = p_echo (w_x w)).
Proof.
  intros H. split.
  - intros ->. destruct (wait_sent cfg w _ w' H) as [(k & _ & _ & [Q|(_ & Q)])|(k & _ & _ & _ & E)]; try discriminate.
    unfold echo_on in E. intros Q. rewrite Q in E. discriminate.
  - intros N. unfold wait_no_echo in H. change (4 * 30)%nat with (S 119) in H. cbn [poll_echo] in H.
    assert (EO : forall x, p_echo x = p_echo (w_x w) -> echo_on x = false) by (intros x Q; unfold echo_on; rewrite Q; destruct (p_echo (w_x w)) as [[]|]; congruence).
    apply b_inv in H as [([] & w1 & H1 & H)|(e & H1 & _)]; [|destruct (c_log cfg); destruct H1 as [Q _]; discriminate].
    assert (S1 : w_tasks w1 = w_tasks w /\ w_hist w1 = w_hist w /\ p_echo (w_x w1) = p_echo (w_x w)) by (destruct (c_log cfg); destruct H1 as [_ ->]; auto).
    destruct S1 as (T1 & H1' & P1).
    apply b_inv in H as [(b & w2 & [Q ->] & H)|(e1 & [Q _] & _)]; [|discriminate]. rewrite (EO _ P1) in Q. injection Q as ->.
    apply b_inv in H as [([] & w3 & [_ ->] & H)|(e1 & [Q _] & _)]; [|discriminate]. destruct H as [-> ->]. cbn. auto.
Qed.
Print Assumptions c54_echo_off.
Example c54_echo_applies : exists w', wait_no_echo conf
  (mk_world [] (mk_px [] false (make_idec false) [] [97] false None 0 (Some None) (Some true) []) []) (Ok tt) w' /\ p_echo (w_x w') = Some false.
Proof. eexists. split. - all: go. 1: wait_by [WEnv (EX (PEcho false)) : @wev rval pev]. all: go. - reflexivity. Qed.
