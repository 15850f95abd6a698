From Verif Require Import PromptSpec EncodingSpec Utf8Proofs EncodingProofs AsyncSpec AsyncProofs AsyncInv AsyncInv2.
Open Scope Z_scope.

Lemma skip2 {A} a b (l : list A) : skipn a (skipn b l) = skipn (b + a) l.
Proof. revert l. induction b as [|b IH]; intros l; [reflexivity|]. destruct l; cbn; [now rewrite skipn_nil|apply IH]. Qed.

(** ** Decoding in pieces *)
Lemma nl_split cr a b : let (x, q) := nl_inc cr a false in fst (nl_inc cr (a ++ b) true) = x ++ fst (nl_inc q b true).
Proof.
  set (t := if cr then [13] else [] : text).
  assert (ST : nl_state t = ([], cr)) by (unfold t; destruct cr; reflexivity).
  pose proof (nl_inc_step t a) as H1. pose proof (nl_inc_final t (a ++ b)) as H2. rewrite ST in H1, H2. destruct (nl_inc cr a false) as [x q] eqn:E.
  pose proof (nl_inc_final (t ++ a) b) as H3. rewrite H1 in H3. cbn [app] in H2, H3. rewrite H2, app_assoc. symmetry. exact H3.
Qed.
Lemma decode_split k e d c b D dd : idec_decode k e d (c ++ b) true = Some (D, dd) ->
  exists t d1 D2 d2, idec_decode k e d c false = Some (t, d1) /\ idec_decode k e d1 b true = Some (D2, d2) /\ D = t ++ D2.
Proof.
  unfold idec_decode. rewrite app_assoc, dec_app. destruct (dec_part k e (i_buf d ++ c) false) as [[t1 r1]|]; [|discriminate].
  unfold cont_with. destruct (dec_part k e (r1 ++ b) true) as [[t2 r2]|] eqn:E; [|discriminate]. destruct (i_normalize d).
  - pose proof (nl_split (i_cr d) t1 t2) as N. destruct (nl_inc (i_cr d) (t1 ++ t2) true) as [x q] eqn:E1. destruct (nl_inc (i_cr d) t1 false) as [y q1]. cbn [fst] in N.
    intros Q. injection Q as <- <-. do 2 eexists. destruct (nl_inc q1 t2 true) as [z q2] eqn:E2. exists z. eexists. split; [reflexivity|]. cbn [i_buf i_cr i_normalize]. rewrite E, E2. auto.
  - intros Q. injection Q as <- <-. do 2 eexists. exists t2. eexists. split; [reflexivity|]. cbn [i_buf i_cr i_normalize]. rewrite E. auto.
Qed.
Lemma decode_finished k e d b t d1 : idec_decode k e d b true = Some (t, d1) -> exists d2, idec_decode k e d1 [] true = Some ([], d2).
Proof.
  unfold idec_decode. destruct (dec_part k e (i_buf d ++ b) true) as [[t1 r1]|] eqn:E; [|discriminate].
  apply dec_rest in E as ([->|[Q _]] & _); [|discriminate]. destruct (i_normalize d).
  - destruct (nl_inc (i_cr d) t1 true) as [x q] eqn:N. intros Q. injection Q as <- <-. cbn [i_buf app]. rewrite dec_nil. cbn [i_normalize i_cr].
    assert (q = false).
    { unfold nl_inc in N. destruct (i_cr d); cbn [andb negb] in N.
      - destruct t1; cbn [andb negb] in N; rewrite andb_false_r in N; now injection N.
      - rewrite andb_false_r in N. now injection N. }
    subst q. eexists. reflexivity.
  - intros Q. injection Q as <- <-. cbn [i_buf app]. rewrite dec_nil. eexists. reflexivity.
Qed.

(** ** One round of reading *)
Section S.
Context (cfg : settings) (good : good_settings cfg).
Notation step := (pstep cfg). Notation fin := (pfinish cfg).

Definition rem (x : px) (F : text) : Prop :=
  exists rest d, idec_decode (c_codec cfg) (c_errors cfg) (p_dec x) (p_buf x ++ p_src x) true = Some (rest, d) /\ F = p_pending x ++ rest.
Definition wf (x : px) : Prop := (p_feof x = true -> p_src x = []) /\ (p_eof x = true -> (p_buf x = [] /\ p_feof x = true) /\ forall t d, idec_decode (c_codec cfg) (c_errors cfg) (p_dec x) [] true = Some (t, d) -> t = []).

Lemma read_chunk_spec x F x1 od : wf x -> p_eof x = false -> rem x F -> read_chunk cfg x = Some (x1, od) ->
  exists data, od = Some data /\ wf x1 /\ p_pending x1 = p_pending x /\ p_active x1 = p_active x /\ p_next x1 = p_next x /\ p_sent x1 = p_sent x
  /\ rem (set_pending (p_pending x1 ++ data) x1) F
  /\ (p_eof x1 = true -> F = p_pending x1 ++ data).
Proof.
  intros (W1 & W2) E (rest & d & R & ->) H. destruct good as (C & _). unfold read_chunk in H.
  destruct (p_buf x) as [|b buf] eqn:B.
  - destruct (p_feof x) eqn:FE; [|discriminate]. rewrite (W1 eq_refl) in *. cbn [app] in R. rewrite firstn_nil, skipn_nil in H. rewrite R in H.
    injection H as <- <-. exists rest. split; [reflexivity|]. destruct (decode_finished _ _ _ _ _ _ R) as (d2 & R2).
    split; [split; cbn; [auto|]; intros _; split; [auto|]; intros t' d' Q; congruence|]. cbn. split; [reflexivity|]. split; [reflexivity|]. split; [reflexivity|]. split; [reflexivity|]. split; [|reflexivity].
    exists [], d2. cbn. split; [exact R2|]. now rewrite app_nil_r.
  - destruct (c_chunk cfg) as [|n] eqn:CC; [lia|]. cbn [firstn skipn] in H. 
    assert (RS : idec_decode (c_codec cfg) (c_errors cfg) (p_dec x) ((b :: firstn n buf) ++ (skipn n buf ++ p_src x)) true = Some (rest, d)).
    { rewrite <- R. f_equal. cbn. f_equal. now rewrite app_assoc, firstn_skipn. }
    apply decode_split in RS as (t & d1 & D2 & d2 & R1 & R2 & ->). rewrite R1 in H. injection H as <- <-.
    exists t. split; [reflexivity|]. split; [split; cbn; [exact W1|discriminate]|]. cbn. repeat (split; [reflexivity|]). split; [|discriminate].
    exists D2, d2. cbn. split; [exact R2|]. now rewrite app_assoc.
Qed.

(** What the end of a reading coroutine means. *)
Definition ended (r : reader) (F : text) (x : px) (o : tout rval) : Prop :=
  match o with
  | TValue (VMatch a m) => exists F' p, F = a ++ m ++ F' /\ rem x F' /\ r = RPattern p
      /\ p (a ++ m ++ p_pending x) = Some (List.length a, (List.length a + List.length m)%nat)
  | TFail EOFError => rem x F /\ p_eof x = true /\ p_pending x = F /\ exists p, r = RPattern p /\ p F = None
  | TValue VNone => rem x F /\ p_eof x = true /\ p_pending x = F /\ r = RSome
  | _ => False
  end.
Definition sane_reader (r : reader) : Prop := match r with RPattern p => sane p | RSome => True end.

Lemma search_spec p x x' a m : sane p -> search_pending p x = Some (x', (a, m)) ->
  p_pending x = a ++ m ++ p_pending x' /\ x' = set_pending (p_pending x') x /\ p (a ++ m ++ p_pending x') = Some (List.length a, (List.length a + List.length m)%nat).
Proof.
  intros S. unfold search_pending. destruct (p (p_pending x)) as [[s e]|] eqn:P; [|discriminate]. intros Q. injection Q as <- <- <-. cbn.
  destruct (S _ _ _ P) as [L1 L2]. set (t := p_pending x) in *.
  assert (E : firstn s t ++ firstn (e - s) (skipn s t) ++ skipn e t = t).
  { assert (Q : skipn e t = skipn (e - s) (skipn s t)) by (rewrite skip2; f_equal; lia). rewrite Q, firstn_skipn, firstn_skipn. reflexivity. }
  split; [now rewrite E|]. split; [reflexivity|]. rewrite E, P, !firstn_length, skipn_length. f_equal. f_equal; lia.
Qed.
Lemma rem_found x F a m x' : rem x F -> p_pending x = a ++ m ++ p_pending x' -> x' = set_pending (p_pending x') x -> exists F', F = a ++ m ++ F' /\ rem x' F'.
Proof.
  intros (rest & d & R & ->) E Q. exists (p_pending x' ++ rest). split; [rewrite E, <- !app_assoc; reflexivity|].
  exists rest, d. split; [|reflexivity]. rewrite Q. exact R.
Qed.
Lemma wf_set t x : wf x -> wf (set_pending t x).
Proof. intros H. exact H. Qed.

Lemma round_spec r x F x' o : wf x -> p_eof x = false -> rem x F -> sane_reader r -> round cfg r x = Some (x', o) ->
  wf x' /\ p_active x' = p_active x /\ p_next x' = p_next x /\ p_sent x' = p_sent x
  /\ match o with None => rem x' F | Some o => ended r F x' o end.
Proof.
  intros W E R SR H. destruct r as [p|]; cbn [round] in H.
  - unfold pattern_round in H. destruct (read_chunk cfg x) as [[x1 od]|] eqn:RC; [|discriminate].
    destruct (read_chunk_spec _ _ _ _ W E R RC) as (data & -> & W1 & P1 & A1 & N1 & S1 & R1 & E1).
    destruct data as [|c data].
    + rewrite app_nil_r in *. destruct (p_eof x1) eqn:EE.
      * destruct (search_pending p (set_pending (p_pending x1) x1)) as [[x3 [a m]]|] eqn:SP; injection H as <- <-.
        -- destruct (search_spec _ _ _ _ _ SR SP) as (Q1 & Q2 & Q3). destruct (rem_found _ _ _ _ _ R1 Q1 Q2) as (F' & -> & R3).
           rewrite Q2. split; [exact W1|]. split; [exact A1|]. split; [exact N1|]. split; [exact S1|]. exists F', p. split; [reflexivity|]. split; [rewrite <- Q2; exact R3|]. split; [reflexivity|]. exact Q3.
        -- split; [exact W1|]. split; [exact A1|]. split; [exact N1|]. split; [exact S1|]. split; [exact R1|]. split; [exact EE|]. cbn. split; [symmetry; now apply E1|].
           exists p. split; [reflexivity|]. rewrite E1 by reflexivity. unfold search_pending in SP. cbn in SP. destruct (p (p_pending x1)) as [[? ?]|]; [discriminate|reflexivity].
      * injection H as <- <-. split; [exact W1|]. split; [exact A1|]. split; [exact N1|]. split; [exact S1|]. destruct x1; exact R1.
    + set (x2 := set_pending (p_pending x1 ++ c :: data) x1) in *.
      destruct (search_pending p x2) as [[x3 [a m]]|] eqn:SP; injection H as <- <-.
      * destruct (search_spec _ _ _ _ _ SR SP) as (Q1 & Q2 & Q3). destruct (rem_found _ _ _ _ _ R1 Q1 Q2) as (F' & -> & R3).
        rewrite Q2. split; [exact W1|]. split; [exact A1|]. split; [exact N1|]. split; [exact S1|]. exists F', p. split; [reflexivity|]. split; [rewrite <- Q2; exact R3|]. split; [reflexivity|]. exact Q3.
      * split; [exact W1|]. split; [exact A1|]. split; [exact N1|]. split; [exact S1|]. destruct (p_eof x1) eqn:EE; [|exact R1].
        split; [exact R1|]. split; [exact EE|]. cbn. split; [symmetry; now apply E1|].
        exists p. split; [reflexivity|]. rewrite E1 by reflexivity. unfold search_pending in SP. cbn in SP. destruct (p (p_pending x1 ++ c :: data)) as [[? ?]|]; [discriminate|reflexivity].
  - unfold some_round in H. destruct (read_chunk cfg x) as [[x1 od]|] eqn:RC; [|discriminate].
    destruct (read_chunk_spec _ _ _ _ W E R RC) as (data & -> & W1 & P1 & A1 & N1 & S1 & R1 & E1). injection H as <- <-.
    split; [exact W1|]. split; [exact A1|]. split; [exact N1|]. split; [exact S1|]. destruct (p_eof x1) eqn:EE; [|exact R1].
    split; [exact R1|]. split; [exact EE|]. cbn. split; [symmetry; now apply E1|reflexivity].
Qed.
End S.
