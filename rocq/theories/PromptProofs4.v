(** What each operation does to the text. *)
From Verif Require Import PromptSpec Utf8Spec AsyncSpec AsyncProofs HarvestSpec HarvestProofs HarvestProofs2 AsyncInv AsyncInv2 PromptProofs PromptProofs2 PromptProofs3.
Open Scope Z_scope.

Section S.
Context (cfg : settings) (good : good_settings cfg).
Notation step := (pstep cfg). Notation fin := (pfinish cfg).
Notation rem := (PromptProofs.rem cfg). Notation wf := (PromptProofs.wf cfg). Notation remaining := (PromptSpec.remaining cfg). Notation ready := (PromptProofs2.ready cfg). Notation ended := (PromptProofs.ended cfg). Notation unread := (PromptProofs2.unread cfg). Notation outcome := (PromptProofs2.outcome cfg). Notation working := (PromptProofs2.working cfg).

Lemma at_eof w F : ready w -> remaining w F -> p_eof (w_x w) = true -> p_pending (w_x w) = F.
Proof.
  intros RD (rest & d & R & ->) E. destruct (rd_wf _ _ RD) as (W1 & W2). destruct (W2 E) as ((B & FE) & D). rewrite B, (W1 FE) in R. cbn in R.
  rewrite (D _ _ R). now rewrite app_nil_r.
Qed.
Lemma ready_set t w : ready w -> ready (mk_world (w_tasks w) (set_pending t (w_x w)) (w_hist w)).
Proof. intros [W ID AS SA]. constructor; auto. Qed.
Lemma ready_add t w : ready w -> ready (mk_world (w_tasks w) (add_sent t (w_x w)) (w_hist w)).
Proof. intros [W ID AS SA]. constructor; auto. Qed.

(** The checks after harvest_results. *)
Lemma check_inv (c : bool) o w r w' : check_results (c, [o]) w r w' -> w' = w /\
  ((c = true /\ r = Err CancelledError) \/ (c = false /\ exists e, o = TFail e /\ is_Exception e = true /\ r = Err e)
   \/ (c = false /\ r = Ok o /\ forall e, o = TFail e -> is_Exception e = false)).
Proof.
  unfold check_results. cbn. destruct c; [intros [-> ->]; auto|]. destruct o as [v|e|]; try (intros [-> ->]; split; [reflexivity|]; right; right; repeat split; auto; discriminate).
  destruct (is_Exception e) eqn:IE; intros [-> ->]; split; try reflexivity; [right; left; eauto|right; right]. split; [reflexivity|]. split; [reflexivity|]. intros e' [= <-]. exact IE.
Qed.

Definition expect_result (q : pattern) (tmo : bool) (F : text) (w : world) (r : res (text * text)) (w' : world) : Prop :=
  match r with
  | Ok (out, m) => exists F', F = out ++ m ++ F' /\ remaining w' F'
      /\ q (out ++ m ++ p_pending (w_x w')) = Some (List.length out, (List.length out + List.length m)%nat)
  | Err EOFError => remaining w' F /\ p_eof (w_x w') = true /\ p_pending (w_x w') = F /\ (F = [] \/ q F = None)
  | Err CancelledError => remaining w' F \/ exists out m F', found_in_call w w' out m /\ F = out ++ m ++ F' /\ remaining w' F'
  | Err TimeoutError => remaining w' F /\ tmo = true
  | Err _ => remaining w' F
  end.

Lemma expect_spec p tmo w r w' F q : ready w -> remaining w F -> used_pattern cfg p = Some q -> sane q ->
  expect cfg p tmo w r w' -> ready w' /\ p_sent (w_x w') = p_sent (w_x w) /\ expect_result q (has_timeout cfg tmo) F w r w'.
Proof.
  intros RD R U SQ H. unfold expect in H. unfold used_pattern in U. rewrite U in H.
  apply b_inv in H as [(w1 & w1' & [Q ->] & H)|(e & [Q _] & _)]; [|discriminate]. injection Q as ->.
  destruct (match p_pending (w_x w) with [] => None | _ => search_pending q (w_x w) end) as [[x' [a m]]|] eqn:SP.
  - apply b_inv in H as [(u & w1 & [_ ->] & [-> ->])|(e & [Q _] & _)]; [|discriminate].
    assert (SP' : search_pending q (w_x w) = Some (x', (a, m))) by (destruct (p_pending (w_x w)); [discriminate|exact SP]).
    destruct (search_spec _ _ _ _ _ SQ SP') as (Q1 & Q2 & Q3). destruct (rem_found _ _ _ _ _ _ R Q1 Q2) as (F' & -> & R3).
    split; [rewrite Q2; now apply ready_set|]. split; [rewrite Q2; reflexivity|]. exists F'. auto.
  - destruct (p_eof (w_x w)) eqn:E.
    { destruct H as [-> ->]. split; [exact RD|]. split; [reflexivity|]. pose proof (at_eof _ _ RD R E) as P. split; [exact R|]. split; [exact E|]. split; [exact P|].
      subst F. unfold search_pending in SP. destruct (p_pending (w_x w)) as [|c t]; [now left|right]. destruct (q (c :: t)) as [[? ?]|] eqn:K; [|reflexivity].
      discriminate. }
    assert (H' : exists rh wh, bindM (new_reader (RPattern q)) (fun id => harvest_results step fin [AwCoro (KReadPattern id)] (has_timeout cfg tmo)) w rh wh
      /\ ((exists e, rh = Err e /\ r = Err e /\ w' = wh) \/ (exists cr, rh = Ok cr /\ bindM (check_results cr) (fun o => match o with TValue (VMatch a b) => ret (a, b) | _ => raise (TypeError "cannot unpack") end) wh r w'))).
    { apply b_inv in H as [(id & w1 & H1 & H)|(e & H1 & ->)].
      - apply b_inv in H as [(cr & w2 & H2 & H)|(e & H2 & ->)].
        + exists (Ok cr), w2. split; [left; eauto|]. right; eauto.
        + exists (Err e), w'. split; [left; eauto|]. left; eauto.
      - exists (Err e), w'. split; [right; eauto|]. left; eauto. }
    destruct H' as (rh & wh & HH & K).
    destruct (harvest_reader cfg good KReadPattern (RPattern q) _ _ _ _ _ (fun _ => eq_refl) RD R SQ HH) as (WK & RD' & RES).
    assert (SE : p_sent (w_x wh) = p_sent (w_x w)) by exact (wk_sent _ _ _ _ _ _ _ _ WK). pose proof (wk_out _ _ _ _ _ _ _ _ WK) as OC.
    set (i := List.length (w_tasks w)) in *.
    assert (SAME : w' = wh).
    { destruct K as [(e & _ & _ & ->)|(cr & Q & K)]; [reflexivity|]. destruct RES as [(o & -> & _)|[(o & -> & _)|(e & -> & _)]]; [| |discriminate]; injection Q as <-.
      - apply b_inv in K as [(o' & w2 & K1 & K2)|(e & K1 & ->)]; apply check_inv in K1 as (-> & _); [|reflexivity]. destruct o' as [[? ?|]| |]; destruct K2 as [_ ->]; reflexivity.
      - apply b_inv in K as [(o' & w2 & K1 & K2)|(e & K1 & ->)]; apply check_inv in K1 as (-> & _); [|reflexivity]. destruct o' as [[? ?|]| |]; destruct K2 as [_ ->]; reflexivity. }
    subst wh. split; [exact RD'|]. split; [exact SE|].
    destruct RES as [(o & -> & TO & NC)|[(o & -> & TO)|(e & -> & NE & TO)]].
    + destruct K as [(e & Q & _)|(cr & Q & K)]; [discriminate|]. injection Q as <-. rewrite TO in OC. specialize (NC I).
      assert (EN : ended (RPattern q) F (w_x w') o) by (destruct OC as [(_ & [(_ & ->)|(Q & _)])|(_ & EN)]; [congruence|now destruct (Q I)|exact EN]).
      apply b_inv in K as [(o' & w2 & K1 & K2)|(e & K1 & Q)]; apply check_inv in K1 as (SW & [(Q' & _)|[(_ & e' & -> & IE & Q')|(_ & Q' & IE)]]); try discriminate.
      * injection Q' as ->. subst w2. destruct o as [[a m|]|e|]; cbn in EN; try tauto.
        -- destruct K2 as [-> _]. destruct EN as (F' & p' & EF & RF & Q & PM). injection Q as <-. exists F'. auto.
        -- destruct EN as (_ & _ & _ & Q). discriminate.
        -- destruct e; try tauto. specialize (IE _ eq_refl). discriminate.
      * injection Q' as <-. subst r. destruct e; cbn in EN; try tauto. destruct EN as (RF & EE & PE & p' & Q & PN). injection Q as <-. cbn. auto.
    + destruct K as [(e & Q & _)|(cr & Q & K)]; [discriminate|]. injection Q as <-.
      apply b_inv in K as [(o' & w2 & K1 & K2)|(e & K1 & Q)]; apply check_inv in K1 as (_ & [(_ & Q')|[(Q' & _)|(Q' & _)]]); try discriminate. injection Q' as ->. subst r. cbn.
      rewrite TO in OC. destruct OC as [(RF & _)|(_ & EN)]; [now left|]. destruct o as [[a m|]|e|]; cbn in EN; try tauto.
      * right. destruct EN as (F' & p' & EF & RF & _). exists a, m, F'. split; [exists i; auto|]. auto.
      * destruct e; try tauto.
    + destruct K as [(e' & Q & -> & _)|(cr & Q & _)]; [|discriminate]. injection Q as <-.
      assert (RF : remaining w' F). { destruct TO as [TO|TO]; rewrite TO in OC; [exact OC|]. destruct OC as [(RF & _)|(_ & EN)]; [exact RF|now destruct EN]. }
      destruct NE as [(-> & ->)|[->| ->]]; cbn; auto.
Qed.
End S.
