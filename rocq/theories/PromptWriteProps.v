(** What a Prompt writes to the input of its co-process (C90). *)
From Verif Require Import PromptSpec EncodingSpec AsyncSpec AsyncProofs HarvestSpec AsyncInv AsyncInv2 Utf8Proofs EncodingProofs EncodingProofs2 RegexProofs
  PromptProofs PromptProofs2 PromptProofs3 PromptProofs4 PromptProofs5 PromptProofs6 PromptProofs7.
Open Scope Z_scope.

(** ** Specification *)
(** The effects on the input: bytes written, or closed. *)
Definition is_input (e : sendev) : bool := match e with SWrite _ | SClose => true | _ => false end.
Definition inputs (l : list sendev) : list sendev := filter is_input l.
(** [d] is what the child must read for `send(txt, end=ending)`: the bytes, or
    the text in the session's encoding, followed by the line ending in it. *)
Definition wire (cfg : settings) (txt : bytes + text) (ending : text) (d : bytes) : Prop :=
  let str_encode := encode (c_codec cfg) (c_errors cfg) in
  match txt with
  | inl b => exists e, d = b ++ e /\ str_encode ending = Some e
  | inr t => exists a e, d = a ++ e /\ str_encode t = Some a /\ str_encode ending = Some e
  end.
(** What one operation with the outcome [r] does to the input. *)
Definition input_of (cfg : settings) (o : op) (r : res answer) (l : list sendev) : Prop :=
  match o with
  | OExpect _ _ | OReadAll _ | OReadPending => l = []
  | OSend txt ending _ _ => (exists d, wire cfg txt ending d /\ l = [SWrite d]) \/ (l = [] /\ exists e, r = Err e)
  | OCommand txt ending _ _ _ _ => (exists d, wire cfg (inr txt) ending d /\ l = [SWrite d]) \/ (l = [] /\ exists e, r = Err e)
  | OClose => match c_pty_eof cfg with
              | Some (c :: eof) => l = [SWrite (c :: eof ++ c :: eof)]      (* the EOF character(s), twice *)
              | _ => l = [SClose]
              end
  end.

(** ** Proofs *)
Lemma wire_data cfg txt ending d : send_data cfg txt ending = Some d -> wire cfg txt ending d.
Proof.
  destruct txt as [b|t]; cbn; intros H.
  - destruct (encode (c_codec cfg) (c_errors cfg) ending) as [e|]; [|discriminate]. injection H as <-. eauto.
  - rewrite encode_app in H. destruct (encode (c_codec cfg) (c_errors cfg) t) as [a|]; [|discriminate]. destruct (encode (c_codec cfg) (c_errors cfg) ending) as [e|]; [|discriminate].
    injection H as <-. eauto.
Qed.
Section S.
Context (cfg : settings).
Notation step := (pstep cfg). Notation fin := (pfinish cfg).
Definition sent_is (s : list sendev) (w : world) : Prop := p_sent (w_x w) = s.
Lemma k_check s cr : keeps (sent_is s) (check_results cr).
Proof. unfold check_results. destruct (fst cr); [apply k_raise|]. destruct (snd cr) as [|[v|e|] [|]]; try apply k_raise; try apply k_ret. destruct (is_Exception e); [apply k_raise|apply k_ret]. Qed.
Lemma k_new s r : keeps (sent_is s) (new_reader r).
Proof. apply k_bind; [apply k_getx|]. intros id. apply k_bind; [apply k_modx; auto|]. intros _. apply k_ret. Qed.
Lemma k_expect s p tmo : keeps (sent_is s) (expect cfg p tmo).
Proof.
  unfold expect. destruct (match p with Some q => Some q | None => c_default cfg end) as [q|]; [|apply k_raise].
  intros w r w' S H. apply b_inv in H as [(w0 & w1 & [Q ->] & H)|(e & [Q _] & _)]; [|discriminate]. injection Q as ->.
  destruct (match p_pending (w_x w) with [] => None | _ => search_pending q (w_x w) end) as [[x' om]|] eqn:SP.
  - apply b_inv in H as [([] & w1 & [_ ->] & [_ ->])|(e & [Q _] & _)]; [|discriminate]. cbn. unfold sent_is. cbn.
    assert (SP' : search_pending q (w_x w) = Some (x', om)) by (destruct (p_pending (w_x w)); [discriminate|exact SP]).
    unfold search_pending in SP'. destruct (q (p_pending (w_x w))) as [[? ?]|]; [|discriminate]. injection SP' as <- _. exact S.
  - revert w r w' S H SP. intros w r w' S H _. destruct (p_eof (w_x w)); [eapply k_raise; eauto|].
    eapply k_bind; [apply k_new| |exact S|exact H]. intros id. apply k_bind; [apply k_harvest_results, sent_stable|]. intros cr.
    apply k_bind; [apply k_check|]. intros o. destruct o as [[a b|]|e|]; try apply k_raise. apply k_ret.
Qed.
Lemma k_read_pending s : keeps (sent_is s) read_pending.
Proof. apply k_bind; [apply k_getx|]. intros t. apply k_bind; [apply k_modx; auto|]. intros _. apply k_ret. Qed.
Lemma k_read_all s tmo : keeps (sent_is s) (read_all cfg tmo).
Proof.
  apply k_bind; [apply k_getx|]. intros eof. apply k_bind; [|intros _; apply k_read_pending]. destruct eof; [apply k_ret|].
  apply k_bind; [apply k_new|]. intros id. apply k_bind; [apply k_harvest_results, sent_stable|]. intros cr. apply k_bind; [apply k_check|]. intros _. apply k_ret.
Qed.
Lemma inputs_polls k l : inputs (repeat (SPoll true) k ++ l) = inputs l.
Proof. induction k as [|k IH]; [reflexivity|exact IH]. Qed.
Lemma send_inputs txt ending ne tmo w r w' : send cfg txt ending ne tmo w r w' ->
  exists l, p_sent (w_x w') = p_sent (w_x w) ++ l /\ ((exists d, wire cfg txt ending d /\ inputs l = [SWrite d]) \/ (inputs l = [] /\ exists e, r = Err e)).
Proof.
  intros H. destruct (send_sent _ _ _ _ _ _ _ _ H) as (pre & post & S & PRE & POST). exists (pre ++ post). split; [exact S|].
  assert (IP : inputs pre = []).
  { destruct PRE as [(_ & ->)|(_ & k & _ & [(-> & _)|(_ & ->)])]; [reflexivity| |].
    - unfold inputs. rewrite filter_app. pose proof (inputs_polls k []) as E. rewrite app_nil_r in E. unfold inputs in E. rewrite E. destruct (c_log cfg); reflexivity.
    - unfold inputs. rewrite filter_app. pose proof (inputs_polls k [SPoll false]) as E. unfold inputs in E. rewrite E. destruct (c_log cfg); reflexivity. }
  unfold inputs in *. rewrite filter_app, IP. cbn [app]. destruct POST as [(-> & E)|(d & SD & ->)]; [right; auto|left].
  exists d. split; [now apply wire_data|]. cbn. destruct (c_log cfg); [destruct ne|]; reflexivity.
Qed.
Lemma op_inputs o w r w' : run_op cfg o w r w' ->
  exists l, p_sent (w_x w') = p_sent (w_x w) ++ l /\ input_of cfg o r (inputs l).
Proof.
  assert (Z : forall m : M answer, keeps (sent_is (p_sent (w_x w))) m -> m w r w' -> exists l, p_sent (w_x w') = p_sent (w_x w) ++ l /\ inputs l = []).
  { intros m K H. exists []. rewrite app_nil_r. split; [exact (K _ _ _ eq_refl H)|reflexivity]. }
  intros H. destruct o as [p tmo|tmo| |txt ending ne tmo|txt ending ne p tmo allow|]; cbn [run_op input_of] in *.
  - eapply Z; [|exact H]. apply k_bind; [apply k_expect|]. intros; apply k_ret.
  - eapply Z; [|exact H]. apply k_bind; [apply k_read_all|]. intros; apply k_ret.
  - eapply Z; [|exact H]. apply k_bind; [apply k_read_pending|]. intros; apply k_ret.
  - apply b_inv in H as [([] & w1 & H & [-> ->])|(e & H & ->)]; destruct (send_inputs _ _ _ _ _ _ _ H) as (l & S & [A|(A & e' & B)]); exists l; (split; [exact S|]); auto.
    + discriminate.
    + right. eauto.
  - assert (K : forall s, keeps (sent_is s) (tryM (bindM (expect cfg p tmo) (fun om => ret (fst om))) (fun e => match e with EOFError => Some (if allow then read_pending else raise EOFError) | _ => None end))).
    { intros s. apply k_try; [apply k_bind; [apply k_expect|intros; apply k_ret]|]. intros e k Q. destruct e; try discriminate. injection Q as <-. destruct allow; [apply k_read_pending|apply k_raise]. }
    assert (C : exists rc, command cfg txt ending ne p tmo allow w rc w' /\ (forall e, rc = Err e -> r = Err e)).
    { apply b_inv in H as [(t & w1 & H & [-> ->])|(e & H & ->)]; [exists (Ok t); split; [exact H|]; discriminate|]. exists (Err e). split; [exact H|]. intros e' [= ->]; reflexivity. }
    destruct C as (rc & C & RC). unfold command in C.
    apply b_inv in C as [(eof & w1 & [Q ->] & C)|(e & [Q _] & _)]; [|discriminate]. destruct eof.
    + destruct C as [-> ->]. exists []. rewrite app_nil_r. split; [reflexivity|]. right. split; [reflexivity|]. eauto.
    + apply b_inv in C as [([] & w1 & C1 & C2)|(e & C & ->)].
      * destruct (send_inputs _ _ _ _ _ _ _ C1) as (l & S & [A|(_ & e & A)]); [|discriminate]. exists l. split; [|left; exact A].
        pose proof (K _ _ _ _ (eq_refl : sent_is (p_sent (w_x w1)) w1) C2) as E. unfold sent_is in E. congruence.
      * destruct (send_inputs _ _ _ _ _ _ _ C) as (l & S & [A|(A & e' & B)]); exists l; (split; [exact S|]); [left; exact A|right]. split; [exact A|]. eauto.
  - apply b_inv in H as [([] & w1 & H & [-> ->])|(e & H & ->)]; unfold close in H; destruct (c_pty_eof cfg) as [[|b eof]|]; destruct H as [Q ->]; try discriminate; eexists; (split; [reflexivity|]); reflexivity.
Qed.
Lemma idle_sent w w' : idle cfg w w' -> p_sent (w_x w') = p_sent (w_x w).
Proof.
  induction 1 as [|w w1 w2 ev c E _ IH]; [reflexivity|]. rewrite IH. exact (st_env _ _ _ (sent_stable cfg (p_sent (w_x w))) _ _ _ _ eq_refl E).
Qed.
End S.

(** ** C90 *)
(** In any sequence of operations with any outcomes, cancellations, timeouts and
    pauses, what happens to the input is what the operations say, in their order:
    each send() and command() writes its text and line ending at most once, in one
    piece, and exactly once if it succeeds; close() ends the input; nothing else
    touches it. *)
Theorem c90_writes cfg w tr w' : session cfg w tr w' ->
  exists l ls, p_sent (w_x w') = p_sent (w_x w) ++ l /\ inputs l = List.concat ls
  /\ Forall2 (fun x i => input_of cfg (fst x) (snd x) i) tr ls.
Proof.
  induction 1 as [w w1 ID|w w1 o r w2 tr w' ID H _ (l & ls & S & E & F)].
  - exists [], []. rewrite app_nil_r. split; [now apply idle_sent in ID|]. split; [reflexivity|constructor].
  - apply idle_sent in ID. destruct (op_inputs _ _ _ _ _ H) as (l0 & S0 & I0). exists (l0 ++ l), (inputs l0 :: ls).
    split; [rewrite S, S0, ID, app_assoc; reflexivity|]. split; [unfold inputs in *; rewrite filter_app, E; reflexivity|]. constructor; [exact I0|exact F].
Qed.
Print Assumptions c90_writes.
(** A text that cannot be encoded: UnicodeError, and nothing is written. *)
Theorem c90_unencodable cfg w txt ending tmo r w' : send cfg txt ending false tmo w r w' -> (forall d, ~ wire cfg txt ending d) ->
  r = Err UnicodeError /\ w' = w.
Proof.
  intros H N. unfold send in H. apply b_inv in H as [([] & w1 & [_ ->] & H)|(e & [Q _] & _)]; [|discriminate].
  destruct (send_data cfg txt ending) as [d|] eqn:SD; [elim (N d); now apply wire_data|]. destruct H. auto.
Qed.
Print Assumptions c90_unencodable.
(** A co-process that decodes its input with the same codec reads the text and
    its line ending, if they have bytes in it. *)
Theorem c90_child_reads cfg t ending d e : wire cfg (inr t) ending d ->
  encode (c_codec cfg) Strict t <> None -> encode (c_codec cfg) Strict ending <> None -> decode (c_codec cfg) e d = Some (t ++ ending).
Proof.
  intros (a & b & -> & A & B) T E. apply decode_encode.
  assert (W : forall u x, encode (c_codec cfg) Strict u <> None -> encode (c_codec cfg) (c_errors cfg) u = Some x -> encode (c_codec cfg) Strict u = Some x).
  { induction u as [|c u IH]; intros x N H; cbn [encode] in *; [exact H|]. unfold encode_one in *. destruct (raw (c_codec cfg) c); [|congruence].
    destruct (encode (c_codec cfg) Strict u) as [y|]; [|congruence]. destruct (encode (c_codec cfg) (c_errors cfg) u) as [z|]; [|discriminate].
    pose proof (IH z ltac:(discriminate) eq_refl) as Q. injection Q as ->. exact H. }
  rewrite encode_app, (W _ _ T A), (W _ _ E B). reflexivity.
Qed.
Print Assumptions c90_child_reads.

From Verif Require Import RunTac PromptProps.
(** send("l\xe9") and close(). *)
Definition idling := mk_world (V := rval) (K := rkind) [] (mk_px [] false (make_idec false) [] [97; 36; 98] false None 0 (Some None) None []) [].
Example c90_applies : exists w', session conf idling [(OSend (inr [108; 233]) [10] false None, Ok ANone); (OClose, Ok ANone)] w'
  /\ p_sent (w_x w') = [SWrite [108; 195; 169; 10]; SLogData 4 [108; 195; 169; 10]; SClose].
Proof.
  eexists. split.
  - eapply se_cons; [constructor| |eapply se_cons; [constructor| |apply se_nil; constructor]].
    + all: go. 1: wait_by [pdone 0 TCancelled; pcb 0]. all: go.
    + all: go.
  - reflexivity.
Qed.
Example c90_unencodable_applies : send conf (inr [55296]) [10] false None idling (Err UnicodeError) idling /\ forall d, ~ wire conf (inr [55296]) [10] d.
Proof. split. { all: go. } intros d (a & e & _ & W & _). vm_compute in W. discriminate. Qed.
(** The same in "ascii replace" and in "utf-16-le". *)
Definition with_codec (k : codec) (e : errors) : settings :=
  {| c_default := None; c_timeout := None; c_chunk := 1024; c_log := false; c_pty_eof := None; c_codec := k; c_errors := e |}.
Example c90_other_encodings : wire (with_codec Ascii Replace) (inr [108; 233]) [10] [108; 63; 10] /\ wire (with_codec Utf16le Strict) (inr [108; 233]) [10] [108; 0; 233; 0; 10; 0]
  /\ exists w', session (with_codec Ascii Replace) idling [(OSend (inr [108; 233]) [10] false None, Ok ANone)] w' /\ p_sent (w_x w') = [SWrite [108; 63; 10]].
Proof.
  split; [exists [108; 63], [10]; repeat split|]. split; [exists [108; 0; 233; 0], [10; 0]; repeat split|]. eexists. split.
  - eapply se_cons; [constructor| |apply se_nil; constructor]. all: go. 1: wait_by [pdone 0 TCancelled; pcb 0]. all: go.
  - reflexivity.
Qed.
