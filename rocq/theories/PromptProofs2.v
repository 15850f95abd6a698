From Verif Require Import PromptSpec Utf8Spec AsyncSpec AsyncProofs HarvestSpec HarvestProofs HarvestProofs2 AsyncInv AsyncInv2 PromptProofs.
Open Scope Z_scope.

Section S.
Context (cfg : settings) (good : good_settings cfg).
Notation step := (pstep cfg). Notation fin := (pfinish cfg).
Notation rem := (PromptProofs.rem cfg). Notation wf := (PromptProofs.wf cfg). Notation remaining := (PromptSpec.remaining cfg). Notation ended := (PromptProofs.ended cfg).

Definition kid (k : rkind) : nat := match k with KReadPattern i | KReadSome i | KDrain i => i end.
Definition reading (k : rkind) : Prop := match k with KDrain _ => False | _ => True end.

(** Events that do not read. *)
Definition unread (x x' : px) : Prop :=
  p_pending x' = p_pending x /\ p_eof x' = p_eof x /\ p_active x' = p_active x /\ p_next x' = p_next x /\ p_sent x' = p_sent x
  /\ (wf x -> wf x') /\ forall F, rem x F -> rem x' F.
Lemma step_cases x e x' c : step x e = Some (x', c) ->
  unread x x'
  \/ (exists id r, p_active x = Some (id, r) /\ p_eof x = false /\ round cfg r x = Some (x', None))
  \/ (exists id, p_active x = Some (id, RSome) /\ p_eof x = true /\ x' = set_active None x)
  \/ (exists id x1 o, p_active x = Some (id, RSome) /\ p_eof x = false /\ round cfg RSome x = Some (x1, Some o) /\ x' = set_active None x1).
Proof.
  destruct e as [n| | | |d|b|]; cbn [pstep].
  - destruct (p_feof x) eqn:FE; [discriminate|]. intros Q. injection Q as <- <-. left. do 5 (split; [reflexivity|]). split.
    + intros (W1 & W2). split; cbn; [congruence|]. intros E. destruct (W2 E) as ((? & ?) & _). congruence.
    + intros F (rest & d & R & ->). exists rest, d. cbn. split; [|reflexivity]. now rewrite <- app_assoc, firstn_skipn.
  - destruct (p_src x) eqn:S; [|discriminate]. intros Q. injection Q as <- <-. left. do 5 (split; [reflexivity|]). split.
    + intros (W1 & W2). split; cbn; [auto|]. intros E. destruct (W2 E) as ((? & ?) & ?). auto.
    + intros F (rest & d & R & ->). exists rest, d. cbn. rewrite S in R. auto.
  - destruct (p_active x) as [[id r]|] eqn:A; [|discriminate]. destruct (p_eof x) eqn:E; [discriminate|].
    destruct (round cfg r x) as [[x1 [o|]]|] eqn:R; try discriminate. intros Q. injection Q as <- <-. right; left. eauto.
  - destruct (p_active x) as [[id [p|]]|] eqn:A; try discriminate. destruct (p_eof x) eqn:E.
    + intros Q. injection Q as <- <-. right; right; left. eauto.
    + destruct (round cfg RSome x) as [[x1 [o|]]|] eqn:R; try discriminate. intros Q. injection Q as <- <-. right; right; right. exists id, x1, o. auto.
  - destruct (p_drain x) as [[e|]|]; [discriminate| |]; intros Q; injection Q as <- <-; left; do 5 (split; [reflexivity|]); (split; [intros W; exact W|]); intros F R; exact R.
  - destruct (p_echo x); [|discriminate]. intros Q. injection Q as <- <-. left. do 5 (split; [reflexivity|]). split; [intros W; exact W|]. intros F R. exact R.
  - intros Q. injection Q as <- <-. left. do 5 (split; [reflexivity|]). split; auto.
Qed.

(** How tasks end. *)
Lemma finish_cases x t o x' : fin x t o = Some x' ->
  ((t_creq t > 0)%nat /\ o = TCancelled /\ x' = deactivate (kid (t_kind t)) x)
  \/ (t_creq t = 0%nat /\ reading (t_kind t) /\ o <> TCancelled /\ exists r x1, p_active x = Some (kid (t_kind t), r) /\ p_eof x = false /\ round cfg r x = Some (x1, Some o) /\ x' = set_active None x1)
  \/ (t_creq t = 0%nat /\ ~ reading (t_kind t) /\ (forall a m, o <> TValue (VMatch a m)) /\ (forall e, o = TFail e -> same_error e e = true) /\
        ((is_active x (kid (t_kind t)) = false /\ x' = x) \/ x' = deactivate (kid (t_kind t)) x)).
Proof.
  unfold pfinish.
  assert (RD : forall id, match t_creq t, o with
      | S _, TCancelled => Some (deactivate id x)
      | O, TCancelled | S _, _ => None
      | O, _ =>
          if is_active x id then
            match p_active x with
            | Some (_, r) =>
                if p_eof x then None else
                match round cfg r x, o with
                | Some (x', Some (TValue (VMatch a b))), TValue (VMatch a' b') =>
                    if list_eq_dec Z.eq_dec a a' then if list_eq_dec Z.eq_dec b b' then Some (set_active None x') else None else None
                | Some (x', Some (TValue VNone)), TValue VNone => Some (set_active None x')
                | Some (x', Some (TFail UnicodeError)), TFail UnicodeError => Some (set_active None x')
                | Some (x', Some (TFail EOFError)), TFail EOFError => Some (set_active None x')
                | _, _ => None
                end
            | None => None
            end
          else None
      end = Some x' -> ((t_creq t > 0)%nat /\ o = TCancelled /\ x' = deactivate id x)
      \/ (t_creq t = 0%nat /\ o <> TCancelled /\ exists r x1, p_active x = Some (id, r) /\ p_eof x = false /\ round cfg r x = Some (x1, Some o) /\ x' = set_active None x1)).
  { intros id H. destruct (t_creq t) as [|n]; [|destruct o; try discriminate; injection H as <-; left; split; [lia|auto]].
    right. assert (NC : o <> TCancelled) by (intros ->; discriminate). split; [reflexivity|]. split; [exact NC|].
    assert (A : is_active x id = true) by (destruct (is_active x id); [reflexivity|destruct o; discriminate]). rewrite A in H.
    unfold is_active in A. destruct (p_active x) as [[i r]|] eqn:AC; [|discriminate]. apply Nat.eqb_eq in A as ->. exists r.
    assert (E : p_eof x = false) by (destruct (p_eof x); [destruct o; discriminate|reflexivity]). rewrite E in H. 
    destruct (round cfg r x) as [[x1 [o1|]]|] eqn:R; [|destruct o; discriminate|destruct o; discriminate].
    assert (K : o1 = o /\ x' = set_active None x1).
    { destruct o1 as [[a b|]|e1|], o as [[a' b'|]|e|]; try discriminate; try (destruct e1; discriminate); try congruence.
      - destruct (list_eq_dec Z.eq_dec a a') as [->|]; [|discriminate]. destruct (list_eq_dec Z.eq_dec b b') as [->|]; [|discriminate]. split; [reflexivity|congruence].
      - split; [reflexivity|congruence].
      - destruct e1, e; try discriminate; split; congruence. }
    destruct K as [-> ->]. eauto. }
  destruct (t_kind t) as [id|id|id]; cbn [kid reading].
  - intros H. apply RD in H as [H|(A & B & C)]; [now left|]. right; left. split; [exact A|]. split; [exact I|]. split; [exact B|exact C].
  - intros H. apply RD in H as [H|(A & B & C)]; [now left|]. right; left. split; [exact A|]. split; [exact I|]. split; [exact B|exact C].
  - clear RD. destruct (t_creq t) as [|n].
    + intros H. right; right. split; [reflexivity|]. split; [tauto|]. destruct o as [[a m|]|e|]; try discriminate.
      * split; [discriminate|]. split; [discriminate|]. destruct (p_drain x) as [[e|]|]; try discriminate. destruct (is_active x id) eqn:A; [discriminate|]. injection H as <-. auto.
      * split; [discriminate|]. destruct (p_drain x) as [[e'|]|]; try discriminate. destruct (is_active x id) eqn:A; [discriminate|].
        destruct (same_error e e') eqn:SE; [|discriminate]. injection H as <-. split; [|auto]. intros e0 Q. injection Q as <-. destruct e, e'; try discriminate; reflexivity.
      * split; [discriminate|]. split; [discriminate|]. destruct (p_drain x) as [[e|]|]; try discriminate; destruct (is_active x id) eqn:A; try discriminate; injection H as <-; auto.
    + destruct o; try discriminate. intros H. injection H as <-. left. split; [lia|auto].
Qed.

(** ** While one coroutine is at work *)
Definition outcome (k : rkind) (r : reader) (F : text) (x : px) (o : option (tout rval)) : Prop :=
  match o with
  | None => rem x F
  | Some o => (rem x F /\ ((reading k /\ o = TCancelled) \/ (~ reading k /\ (forall a m, o <> TValue (VMatch a m)) /\ forall e, o = TFail e -> same_error e e = true)))
              \/ (reading k /\ ended r F x o)
  end.
Record working (i : nat) (k : rkind) (r : reader) (F : text) (s0 : list sendev) (n0 : nat) (w : world) : Prop := {
  wk_wf : wf (w_x w);
  wk_act : p_active (w_x w) = None \/ p_active (w_x w) = Some (kid k, r);
  wk_task : exists t, nth_error (w_tasks w) i = Some t /\ t_kind t = k /\ (reading k -> t_out t = Some TCancelled -> (t_creq t > 0)%nat);
  wk_others : forall j t, nth_error (w_tasks w) j = Some t -> j <> i -> kid (t_kind t) <> kid k /\ (t_out t = None -> reading (t_kind t) -> (t_creq t > 0)%nat);
  wk_done : task_done w i = true -> p_active (w_x w) = None;
  wk_out : outcome k r F (w_x w) (task_out w i);
  wk_sent : p_sent (w_x w) = s0;
  wk_next : p_next (w_x w) = n0;
  wk_ids : forall j t, nth_error (w_tasks w) j = Some t -> (kid (t_kind t) < n0)%nat
}.
Lemma ended_unread r F x x' o : unread x x' -> ended r F x o -> ended r F x' o.
Proof.
  intros (P & E & _ & _ & _ & _ & R) H. destruct o as [[a m|]|e|]; cbn in *; try tauto.
  - destruct H as (F' & p & A & B & C & D). exists F', p. rewrite P. auto.
  - destruct H as (A & B & C & D). rewrite P, E. auto.
  - destruct e; try tauto. destruct H as (A & B & C & D). rewrite P, E. auto.
Qed.
Lemma outcome_unread k r F x x' o : unread x x' -> outcome k r F x o -> outcome k r F x' o.
Proof.
  intros U H. destruct o as [o|]; cbn in *; [|now apply U]. destruct H as [(A & B)|(A & B)].
  - left. split; [now apply U|exact B].
  - right. split; [exact A|]. now apply (ended_unread _ _ x).
Qed.
Lemma unread_deact id x : wf x -> (is_active x id = false \/ deactivate id x = x) -> deactivate id x = x.
Proof. intros _ [H|H]; [unfold deactivate; now rewrite H|exact H]. Qed.

Lemma working_step i k r F s0 n0 w ev w' c : sane_reader r -> working i k r F s0 n0 w -> env_step step fin w ev = Some (w', c) -> working i k r F s0 n0 w'.
Proof.
  intros SR [W A T O D OC SE NX ID] H. destruct ev as [j o|e]; cbn [env_step] in H.
  - destruct (nth_error (w_tasks w) j) as [t|] eqn:N; [|discriminate]. destruct (t_out t) eqn:TO; [discriminate|].
    destruct (fin (w_x w) t o) as [x'|] eqn:FI; [|discriminate]. injection H as <- <-.
    set (upd := fun t0 : task rkind rval => mk_task (t_kind t0) (Some o) (t_creq t0)).
    destruct T as (ti & Ni & Ki & Ci).
    assert (NTH : forall m, nth_error (upd_nth (w_tasks w) j upd) m = if Nat.eqb m j then Some (upd t) else nth_error (w_tasks w) m).
    { intros m. destruct (Nat.eqb_spec m j) as [->|NE]; [now apply nth_upd_same|]. apply nth_upd_other. congruence. }
    apply finish_cases in FI.
    destruct (Nat.eq_dec j i) as [->|NE].
    + (* the coroutine itself *)
      rewrite Ni in N. injection N as <-. rewrite Ki in *.
      assert (OUT0 : task_out w i = None) by (unfold task_out; now rewrite Ni). rewrite OUT0 in OC. cbn in OC.
      assert (MAIN : wf x' /\ p_active x' = None /\ p_sent x' = s0 /\ p_next x' = n0 /\ outcome k r F x' (Some o) /\ (reading k -> o = TCancelled -> (t_creq ti > 0)%nat)).
      { destruct FI as [(CR & -> & ->)|[(CR & RK & NC & r1 & x1 & AC & E & R & ->)|(CR & NR & NM & SM & X)]].
        - assert (Q : p_active (deactivate (kid k) (w_x w)) = None /\ wf (deactivate (kid k) (w_x w)) /\ rem (deactivate (kid k) (w_x w)) F /\ p_sent (deactivate (kid k) (w_x w)) = s0 /\ p_next (deactivate (kid k) (w_x w)) = n0).
          { unfold deactivate, is_active. destruct A as [A|A]; rewrite A; [auto|]. rewrite Nat.eqb_refl. cbn. auto. }
          destruct Q as (Q1 & Q2 & Q3 & Q4 & Q5). repeat (split; [assumption|]). split; [|auto]. left. split; [exact Q3|]. destruct k; cbn; [left; auto|left; auto|right; split; [tauto|]; split; discriminate].
        - destruct A as [A|A]; [congruence|]. rewrite AC in A. injection A as ->.
          destruct (round_spec cfg good _ _ _ _ _ W E OC SR R) as (W1 & A1 & N1 & S1 & EN). cbn in EN.
          split; [exact W1|]. split; [reflexivity|]. split; [cbn; congruence|]. split; [cbn; congruence|]. split; [right; split; [exact RK|exact EN]|]. intros _ ->. congruence.
        - assert (Q : p_active x' = None /\ wf x' /\ rem x' F /\ p_sent x' = s0 /\ p_next x' = n0).
          { destruct X as [(IA & ->)| ->].
            - destruct A as [A|A]; [auto|]. unfold is_active in IA. rewrite A, Nat.eqb_refl in IA. discriminate.
            - unfold deactivate, is_active. destruct A as [A|A]; rewrite A; [auto|]. rewrite Nat.eqb_refl. cbn. auto. }
          destruct Q as (Q1 & Q2 & Q3 & Q4 & Q5). repeat (split; [assumption|]). split; [|tauto]. left. split; [exact Q3|]. right. auto. }
      destruct MAIN as (M1 & M2 & M3 & M4 & M5 & M6).
      constructor; cbn; auto.
      * exists (upd ti). rewrite NTH, Nat.eqb_refl. cbn. repeat split; auto. intros RK Q. injection Q as ->. auto.
      * intros m t Hm NE. rewrite NTH in Hm. apply Nat.eqb_neq in NE as NE'. rewrite NE' in Hm. now apply (O m).
      * unfold task_out. cbn [w_tasks]. rewrite NTH, Nat.eqb_refl. exact M5.
      * intros m t Hm. rewrite NTH in Hm. destruct (Nat.eqb_spec m i) as [->|NE]; [injection Hm as <-; exact (ID i ti Ni)|exact (ID m t Hm)].
    + (* another task *)
      assert (X : x' = w_x w).
      { destruct (O j t N NE) as (KD & RQ).
        assert (NA : is_active (w_x w) (kid (t_kind t)) = false).
        { unfold is_active. destruct A as [A|A]; rewrite A; [reflexivity|]. apply Nat.eqb_neq. congruence. }
        assert (DE : deactivate (kid (t_kind t)) (w_x w) = w_x w) by (unfold deactivate; now rewrite NA).
        destruct FI as [(CR & -> & ->)|[(CR & RK & NC & r1 & x1 & AC & E & R & ->)|(CR & NR & NM & SM & [(_ & ->)| ->])]]; auto.
        exfalso. unfold is_active in NA. rewrite AC, Nat.eqb_refl in NA. discriminate. }
      subst x'. assert (TOi : task_out (mk_world (upd_nth (w_tasks w) j upd) (w_x w) (w_hist w ++ [HDone j o])) i = task_out w i).
      { unfold task_out. cbn [w_tasks]. rewrite NTH. destruct (Nat.eqb_spec i j); [congruence|reflexivity]. }
      constructor; cbn [w_x w_tasks]; auto.
      * exists ti. rewrite NTH. destruct (Nat.eqb_spec i j); [congruence|]. auto.
      * intros m t' Hm NEm. rewrite NTH in Hm. destruct (Nat.eqb_spec m j) as [->|]; [|now apply (O m)]. injection Hm as <-. cbn. split; [now apply (O j t N)|discriminate].
      * unfold task_done. rewrite TOi. exact D.
      * rewrite TOi. exact OC.
      * intros m t' Hm. rewrite NTH in Hm. destruct (Nat.eqb_spec m j) as [->|NEm]; [injection Hm as <-; exact (ID j t N)|exact (ID m t' Hm)].
  - destruct (step (w_x w) e) as [[x' c']|] eqn:ST; [|discriminate]. injection H as <- <-.
    assert (MAIN : wf x' /\ (p_active x' = None \/ p_active x' = Some (kid k, r)) /\ (task_done w i = true -> p_active x' = None) /\ outcome k r F x' (task_out w i) /\ p_sent x' = s0 /\ p_next x' = n0).
    { apply step_cases in ST as [U|[(id & r1 & AC & E & R)|[(id & AC & E & ->)|(id & x1 & o & AC & E & R & ->)]]].
      - pose proof (outcome_unread _ _ _ _ _ _ U OC). destruct U as (P1 & P2 & P3 & P4 & P5 & P6 & P7). rewrite P3, P4, P5. split; [now apply P6|]. auto.
      - destruct A as [A|A]; [congruence|]. rewrite AC in A. injection A as -> ->.
        assert (ND : task_out w i = None).
        { unfold task_done in D. destruct (task_out w i); [|reflexivity]. rewrite D in AC by reflexivity. discriminate. }
        rewrite ND in *. cbn in OC. destruct (round_spec cfg good _ _ _ _ _ W E OC SR R) as (W1 & A1 & N1 & S1 & EN).
        split; [exact W1|]. split; [right; congruence|]. split; [unfold task_done; rewrite ND; discriminate|]. split; [exact EN|]. split; congruence.
      - split; [exact W|]. split; [now left|]. split; [reflexivity|]. split; [|auto]. destruct A as [A|A]; [congruence|]. rewrite AC in A. injection A as -> <-.
        assert (ND : task_out w i = None).
        { unfold task_done in D. destruct (task_out w i); [|reflexivity]. rewrite D in AC by reflexivity. discriminate. }
        rewrite ND in *. exact OC.
      - destruct A as [A|A]; [congruence|]. rewrite AC in A. injection A as -> <-.
        assert (ND : task_out w i = None).
        { unfold task_done in D. destruct (task_out w i); [|reflexivity]. rewrite D in AC by reflexivity. discriminate. }
        rewrite ND in *. cbn in OC. destruct (round_spec cfg good _ _ _ _ _ W E OC SR R) as (W1 & A1 & N1 & S1 & EN).
        split; [exact W1|]. split; [now left|]. split; [reflexivity|]. split; [|split; cbn; congruence]. cbn in EN |- *.
        destruct o as [[a m|]|e0|]; cbn in EN; try tauto; [destruct EN as (? & ? & _ & _ & Q & _); discriminate|]. destruct e0; try tauto. }
    destruct MAIN as (M1 & M2 & M3 & M4 & M5 & M6). constructor; cbn; auto.
Qed.

Lemma working_stable i k r F s0 n0 : sane_reader r -> stable0 step fin (working i k r F s0 n0).
Proof.
  intros SR. constructor.
  - intros w ev w' c. now apply working_step.
  - intros w [W A T O D OC SE NX ID]. constructor; auto.
  - intros w j WK. unfold req. destruct (task_done w j) eqn:DJ; [exact WK|]. destruct WK as [W A T O D OC SE NX ID].
    set (upd := fun t0 : task rkind rval => mk_task (t_kind t0) (t_out t0) (S (t_creq t0))).
    assert (NTH : forall m, nth_error (upd_nth (w_tasks w) j upd) m = if Nat.eqb m j then option_map upd (nth_error (w_tasks w) m) else nth_error (w_tasks w) m).
    { intros m. destruct (Nat.eqb_spec m j) as [->|NE]; [|apply nth_upd_other; congruence].
      destruct (nth_error (w_tasks w) j) eqn:N; [now apply nth_upd_same|]. now rewrite nth_upd_none. }
    assert (TO : forall m, task_out (mk_world (upd_nth (w_tasks w) j upd) (w_x w) (w_hist w ++ [HReq j])) m = task_out w m).
    { intros m. unfold task_out. cbn [w_tasks]. rewrite NTH. destruct (Nat.eqb m j); [|reflexivity]. destruct (nth_error (w_tasks w) m); reflexivity. }
    destruct T as (ti & Ni & Ki & Ci). constructor; cbn [w_x w_tasks]; auto.
    + rewrite NTH, Ni. destruct (Nat.eqb i j); [|eauto]. exists (upd ti). cbn. repeat split; auto. lia.
    + intros m t Hm NE. rewrite NTH in Hm. destruct (Nat.eqb m j); [|now apply (O m)].
      destruct (nth_error (w_tasks w) m) as [t0|] eqn:N; [|discriminate]. injection Hm as <-. cbn. destruct (O m t0 N NE) as (K1 & K2). split; [exact K1|]. intros; lia.
    + unfold task_done. rewrite TO. exact D.
    + rewrite TO. exact OC.
    + intros m t Hm. rewrite NTH in Hm. destruct (Nat.eqb m j); [|now apply (ID m)].
      destruct (nth_error (w_tasks w) m) as [t0|] eqn:N; [|discriminate]. injection Hm as <-. cbn. now apply (ID m).
Qed.

(** Once asked to cancel, a coroutine ends cancelled. *)
Definition asked (i : nat) (w : world) : Prop := exists t, nth_error (w_tasks w) i = Some t /\ (t_creq t > 0)%nat /\ (t_out t = None \/ t_out t = Some TCancelled).
Lemma asked_stable i : stable0 step fin (asked i).
Proof.
  constructor.
  - intros w ev w' c (t & N & C & O) H. destruct ev as [j o|e]; cbn [env_step] in H.
    + destruct (nth_error (w_tasks w) j) as [tj|] eqn:Nj; [|discriminate]. destruct (t_out tj) eqn:TO; [discriminate|].
      destruct (fin (w_x w) tj o) as [x'|] eqn:FI; [|discriminate]. injection H as <- <-. unfold asked. cbn.
      destruct (Nat.eq_dec j i) as [->|NE]; [|exists t; rewrite nth_upd_other by congruence; auto].
      rewrite N in Nj. injection Nj as <-. exists (mk_task (t_kind t) (Some o) (t_creq t)). rewrite (nth_upd_same _ _ _ _ N). cbn. repeat split; auto. right.
      apply finish_cases in FI as [(_ & -> & _)|[(Q & _)|(Q & _)]]; [reflexivity|lia|lia].
    + destruct (step (w_x w) e) as [[x' c']|]; [|discriminate]. injection H as <- <-. exists t. auto.
  - intros w H. exact H.
  - intros w j (t & N & C & O). unfold req. destruct (task_done w j); [exists t; auto|]. unfold asked. cbn. destruct (Nat.eq_dec j i) as [->|NE].
    + rewrite (nth_upd_same _ _ _ _ N). eexists. split; [reflexivity|]. cbn. split; [lia|exact O].
    + rewrite nth_upd_other by congruence. exists t. auto.
Qed.

(** ** Between operations *)
Record ready (w : world) : Prop := {
  rd_wf : wf (w_x w);
  rd_ids : forall j t, nth_error (w_tasks w) j = Some t -> (kid (t_kind t) < p_next (w_x w))%nat;
  rd_asked : forall j t, nth_error (w_tasks w) j = Some t -> t_out t = None -> reading (t_kind t) -> (t_creq t > 0)%nat;
  rd_sane : forall id r, p_active (w_x w) = Some (id, r) -> sane_reader r
}.
Lemma ready_idle w w' F : idle cfg w w' -> ready w -> remaining w F -> ready w' /\ remaining w' F /\ p_sent (w_x w') = p_sent (w_x w).
Proof.
  induction 1 as [w|w ev w1 c w2 E _ IH]; intros RD R; [auto|].
  assert (K : ready w1 /\ remaining w1 F /\ p_sent (w_x w1) = p_sent (w_x w)).
  { clear IH w2. destruct RD as [W ID AS SA]. destruct ev as [j o|e]; cbn [env_step] in E.
    - destruct (nth_error (w_tasks w) j) as [tj|] eqn:Nj; [|discriminate]. destruct (t_out tj) eqn:TO; [discriminate|].
      destruct (fin (w_x w) tj o) as [x'|] eqn:FI; [|discriminate]. injection E as <- <-.
      assert (X : x' = w_x w \/ x' = set_active None (w_x w)).
      { apply finish_cases in FI as [(_ & _ & ->)|[(Q & RK & _)|(_ & _ & _ & _ & [(_ & ->)| ->])]]; auto.
        - unfold deactivate. destruct (is_active _ _); auto.
        - specialize (AS _ _ Nj TO RK). lia.
        - unfold deactivate. destruct (is_active _ _); auto. }
      split; [constructor|split].
      + destruct X as [->| ->]; exact W.
      + cbn. intros m t Hm. assert (Q : (kid (t_kind t) < p_next (w_x w))%nat); [|destruct X as [->| ->]; exact Q].
        destruct (Nat.eq_dec j m) as [->|NE]; [rewrite (nth_upd_same _ _ _ _ Nj) in Hm; injection Hm as <-; exact (ID m tj Nj)|rewrite nth_upd_other in Hm by congruence; now apply (ID m)].
      + cbn. intros m t Hm ON RK. destruct (Nat.eq_dec j m) as [->|NE]; [rewrite (nth_upd_same _ _ _ _ Nj) in Hm; injection Hm as <-; discriminate|rewrite nth_upd_other in Hm by congruence; now apply (AS m)].
      + cbn. intros id r Q. destruct X as [->| ->]; [now apply (SA id)|discriminate].
      + destruct X as [->| ->]; exact R.
      + destruct X as [->| ->]; reflexivity.
    - destruct (step (w_x w) e) as [[x' c']|] eqn:ST; [|discriminate]. injection E as <- <-.
      apply step_cases in ST as [U|[(id & r1 & AC & E & RO)|[(id & AC & E & ->)|(id & x1 & o & AC & E & RO & ->)]]].
      + destruct U as (P1 & P2 & P3 & P4 & P5 & P6 & P7). split; [constructor|split]; cbn; auto.
        * rewrite P4. exact ID.
        * rewrite P3. exact SA.
        * now apply P7.
      + destruct (round_spec cfg good _ _ _ _ _ W E R (SA _ _ AC) RO) as (W1 & A1 & N1 & S1 & EN). split; [constructor|split]; cbn; auto.
        * rewrite N1. exact ID.
        * rewrite A1. exact SA.
      + split; [constructor|split]; cbn; auto. discriminate.
      + destruct (round_spec cfg good RSome _ _ _ _ W E R I RO) as (W1 & A1 & N1 & S1 & EN). split; [constructor|split]; cbn; auto.
        * rewrite N1. exact ID.
        * discriminate.
        * cbn in EN. destruct o as [[a m|]|e0|]; cbn in EN; try tauto; [destruct EN as (? & ? & _ & _ & Q & _); discriminate|]. destruct e0; try tauto. }
  destruct K as (K1 & K2 & K3). destruct (IH K1 K2) as (A & B & C). split; [exact A|]. split; [exact B|]. congruence.
Qed.
End S.
