(** Invariants of the writer and the readers (C113-C116). *)
From Verif Require Export FlowSpec.
From Coq Require Import Lia.
Open Scope Z_scope.

Record PipeOk (p : pipe) : Prop := { pk_cap : PIPE_BUF <= cap p; pk_fifo : p_in p = p_out p ++ data p; pk_room : 0 <= room p }.
Lemma size_app a b : size (a ++ b) = size a + size b.
Proof. unfold size. rewrite app_length. lia. Qed.
Lemma pk_put b p : size b <= room p -> PipeOk p -> PipeOk (put b p).
Proof. intros H [A B C]. unfold room in *. split; cbn; [exact A|now rewrite B, app_assoc|]. unfold room. cbn. rewrite size_app. lia. Qed.
Lemma pk_take n p : PipeOk p -> PipeOk (take n p).
Proof.
  intros [A B C]. unfold room in *. split; cbn; [exact A|now rewrite B, <- app_assoc, firstn_skipn|]. unfold room. cbn. unfold size in *. rewrite skipn_length. lia.
Qed.
Lemma pk_shut_w p : PipeOk p -> PipeOk (shut_w p).
Proof. intros [A B C]. split; assumption. Qed.
Lemma pk_shut_r p : PipeOk p -> PipeOk (shut_r p).
Proof. intros [A B C]. split; assumption. Qed.
Lemma full_data p b : PipeOk p -> full p b -> data p <> [].
Proof. intros [A _ _] F E. unfold full, room in F. rewrite E in F. change (size []) with 0 in F. lia. Qed.
Lemma unwritable_data p : PipeOk p -> room p < PIPE_BUF -> data p <> [].
Proof. intros [A _ _] F E. unfold room in F. rewrite E in F. change (size []) with 0 in F. lia. Qed.

(** ** The writer *)
Record WInv (input : list bytes) (w : writer) (p : pipe) : Prop := {
  iw_input : r_open p = true -> whole input = p_in p ++ wb w ++ whole (src w);
  iw_prefix : exists rest, whole input = p_in p ++ rest;
  iw_open : r_open p = true -> closing w = true -> pc w = WClosed;
  iw_closed : pc w = WClosed -> closing w = true /\ src w = [];
  iw_failed : pc w = WFailed -> closing w = true;
  iw_woken : pc w = WFailed \/ pc w = WWoken true -> r_open p = false;
  iw_exc : In (CbTLost true) (wq w) \/ In (CbPLost true) (wq w) -> r_open p = false;
  iw_lost : conn_lost w = true -> closing w = true;
  iw_tlost : forall e, In (CbTLost e) (wq w) -> closing w = true /\ wb w = [];
  iw_plost : forall e, In (CbPLost e) (wq w) -> closing w = true;
  iw_shut : w_open p = false -> closing w = true /\ wb w = [];
  iw_closing : closing w = true -> wb w <> [] \/ (exists e, In (CbTLost e) (wq w)) \/ w_open p = false;
  iw_paused : paused w = true -> wb w <> [] \/ (exists e, In (CbTLost e) (wq w) \/ In (CbPLost e) (wq w)) \/ conn_lost w = true;
  iw_wait : pc w = WWait -> paused w = true /\ conn_lost w = false;
  iw_peer : sel_peer w = false -> closing w = true /\ wb w = [];
}.
Ltac pr := cbn [proactive src pc wb closing sel_peer paused conn_lost wq up_task up_buf up_close up_lost up_wq soon t_fail t_lost fst snd
  data cap w_open r_open p_in p_out put take shut_w shut_r] in *.
Ltac inq := repeat match goal with
  | H : In _ (_ ++ _) |- _ => apply in_app_or in H
  | H : In _ [_] |- _ => destruct H as [H|[]]
  | H : In _ [] |- _ => destruct H
  end.
Lemma in_last {A} (x : A) l : In x (l ++ [x]).
Proof. apply in_or_app. right. now left. Qed.
Lemma in_old {A} (x : A) l m : In x l -> In x (l ++ m).
Proof. intros H. apply in_or_app. now left. Qed.
Lemma whole_cons b l : b <> [] -> whole (b :: l) = b ++ whole l.
Proof. destruct b; [congruence|reflexivity]. Qed.
Lemma skipn_ne {A} n (l : list A) : (n < List.length l)%nat -> skipn n l <> [].
Proof. intros H E. apply (f_equal (@List.length _)) in E. rewrite skipn_length in E. cbn in E. lia. Qed.

Lemma winv_start st l c : WInv l (new_writer st l) (new_pipe c).
Proof.
  split; cbn; try discriminate; try tauto; eauto; intuition (try discriminate).
Qed.

Section Writer.
Context (input : list bytes).
Notation Inv := (WInv input).
(** Actions of the process at the other end. *)
Lemma winv_take n w p : Inv w p -> Inv w (take n p).
Proof. intros []. split; pr; assumption. Qed.
Lemma winv_shut_r w p : Inv w p -> Inv w (shut_r p).
Proof. intros []. split; pr; try assumption; auto; discriminate. Qed.

(** For most fields. *)
Ltac chain := repeat match goal with
  | X : ?a = ?a -> _ |- _ => specialize (X eq_refl)
  | X : ?A -> _, H : ?A |- _ => match type of A with Prop => specialize (X H) end
  | X : ?A -> _ |- _ => match type of A with Prop => assert (~ A) as _ by discriminate; clear X end
  | X : (?A \/ ?B) -> _, H : ?A |- _ => specialize (X (or_introl H))
  | X : (?A \/ ?B) -> _, H : ?B |- _ => specialize (X (or_intror H))
  | X : (?A \/ ?B) -> _ |- _ => first [specialize (X (or_introl eq_refl)) | specialize (X (or_intror eq_refl))]
  | X : forall e, In (CbTLost e) ?q -> _, H : In (CbTLost _) ?q |- _ => specialize (X _ H)
  | X : forall e, In (CbPLost e) ?q -> _, H : In (CbPLost _) ?q |- _ => specialize (X _ H)
  | H : _ /\ _ |- _ => destruct H
  end.
Ltac split_or := repeat match goal with H : _ \/ _ |- _ => destruct H end.
Ltac easy_field := try solve [assumption | intros; left; discriminate | discriminate | congruence | intros; split_or; chain; try discriminate; try congruence; try (repeat split; congruence); eauto 4 | intros; chain; split_or; chain; try discriminate; try congruence; eauto 4].
Ltac fields I := destruct I as [iw_input iw_prefix iw_open iw_closed iw_failed iw_woken iw_exc iw_lost iw_tlost iw_plost iw_shut iw_closing iw_paused iw_wait iw_peer]; split; pr.
Lemma winv_fail e w p : Inv w p -> r_open p = false -> Inv (t_fail e w) p.
Proof.
  intros I R. unfold t_fail. fields I; easy_field.
  - intros H. right. left. eexists. apply in_last.
  - intros H. right. left. eexists. left. apply in_last.
Qed.
Lemma winv_pause w p : Inv w p -> wb w <> [] -> Inv (maybe_pause w) p.
Proof.
  intros I N. unfold maybe_pause. destruct (_ <? _); [|exact I]. fields I; easy_field.
Qed.
Lemma winv_close w p : Inv w p -> pc w = WNext -> whole (src w) = [] -> Inv (up_task [] WClosed (t_close w)) p.
Proof.
  intros I PC E. unfold t_close. destruct (closing w) eqn:C; [|destruct (wb w) as [|z b] eqn:B].
  - fields I; rewrite ?C, ?E in *; easy_field.
  - fields I; rewrite ?C, ?E, ?B in *; easy_field.
    + intros [H|H]; apply in_app_or in H; (destruct H as [H|[H|[]]]; [auto|discriminate]).
    + intros H. right. left. eexists. apply in_last.
    + intros H. right. left. eexists. left. apply in_last.
  - fields I; rewrite ?C, ?E, ?B in *; easy_field.
Qed.
Lemma winv_task w p w' p' : Inv w p -> w_task w p w' p' -> Inv w' p'.
Proof.
  intros I ST. destruct ST as [PC E|b rest PC E NB PA C|b rest w' p' PC E NB PA TW|PC|PC|exc PC].
  - apply winv_close; auto. destruct E as [->|(r & ->)]; reflexivity.
  - fields I; rewrite ?PC, ?C in *; easy_field. intros _. destruct (r_open p); [specialize (iw_open eq_refl eq_refl); discriminate|reflexivity].
  - assert (W : whole (src w) = b ++ whole rest) by (rewrite E; now apply whole_cons).
    assert (I1 : WInv input w' p' -> True) by auto. clear I1.
    destruct TW as [C|C NE|C B R|C B R SZ|n C B R LT SZ].
    + fields I; rewrite ?PC, ?C, ?W in *; easy_field.
    + assert (I2 : Inv (up_task rest WDrain (up_buf (wb w ++ b) (paused w) w)) p).
      { fields I; rewrite ?PC, ?C, ?W in *; easy_field.
        - intros H. rewrite (iw_input H), <- app_assoc. reflexivity.
        - intros H. left. destruct (wb w); [congruence|discriminate].
 }
      unfold maybe_pause in *. pr. destruct (_ <? _); [|exact I2]. clear I. fields I2; easy_field. intros _. left. destruct (wb w); [congruence|discriminate].
    + pose proof (winv_fail true _ _ I R) as I2. clear I. fields I2; rewrite ?PC in *; easy_field.
    + fields I; rewrite ?PC, ?C, ?W, ?B in *; easy_field.
      * intros H. rewrite (iw_input H). cbn. now rewrite <- app_assoc.
      * specialize (iw_input R). exists (whole rest). rewrite iw_input. cbn. now rewrite <- app_assoc.
    + pose proof (skipn_ne _ _ LT) as NE.
      assert (I2 : Inv (up_task rest WDrain (up_buf (skipn n b) (paused w) w)) (put (firstn n b) p)).
      { fields I; rewrite ?PC, ?C, ?W, ?B in *; easy_field.
        - intros H. rewrite (iw_input H). cbn. rewrite <- app_assoc, (app_assoc (firstn n b)), firstn_skipn. reflexivity.
        - specialize (iw_input R). exists (skipn n b ++ whole rest). rewrite iw_input. cbn. rewrite <- app_assoc, (app_assoc (firstn n b)), firstn_skipn. reflexivity.
 }
      unfold maybe_pause in *. pr. destruct (_ <? _); [|exact I2]. clear I. fields I2; easy_field.
  - destruct (closing w) eqn:C; [fields I; rewrite ?PC, ?C in *; easy_field|].
    unfold helper, after_drain. destruct (conn_lost w) eqn:L; [pose proof (iw_lost _ _ _ I L); congruence|].
    destruct (paused w) eqn:P; fields I; rewrite ?PC, ?C, ?L, ?P in *; easy_field.
  - unfold helper, after_drain. destruct (conn_lost w) eqn:L; [|destruct (paused w) eqn:P]; fields I; rewrite ?PC, ?L, ?P in *; easy_field.
  - unfold after_drain. fields I; rewrite ?PC in *; easy_field.
    intros H. destruct exc; [|auto]. specialize (iw_woken (or_intror eq_refl)). congruence.
Qed.
Lemma winv_wake e w p : Inv w p -> (e = true -> r_open p = false) -> paused w = true \/ conn_lost w = true -> Inv (wake e w) p.
Proof.
  intros I X _. unfold wake. destruct (pc w) eqn:PC; try exact I. fields I; rewrite ?PC in *; easy_field.
  intros [H|H]; [discriminate|injection H as ->; auto].
Qed.
Lemma winv_step w p w' p' : Inv w p -> w_step w p w' p' -> Inv w' p'.
Proof.
  intros I ST. destruct ST as [w' p' ST|exc q Q|exc q Q|SP R|NE R|n NE R NO LT SZ|NE R SZ C|NE R SZ C].
  - eapply winv_task; eassumption.
  - fields I; rewrite ?Q in *; cbn [In] in *; easy_field.
    + intros [H|H]; apply in_app_or in H; (destruct H as [H|[H|[]]]; [auto|]); try discriminate. injection H as ->. auto.
    + intros e _. apply (iw_tlost exc (or_introl eq_refl)).
    + intros H. destruct (iw_paused H) as [X|[(e & X)|X]]; auto. right. left. exists exc. right. apply in_last.
  - unfold p_lost. cbv zeta. pr.
    assert (X : closing w = true) by (apply (iw_plost _ _ _ I exc); rewrite Q; now left).
    assert (CL : wb w <> [] \/ (exists e : bool, In (CbTLost e) q) \/ w_open p = false).
    { destruct (iw_closing _ _ _ I X) as [H|[(e & H)|H]]; auto. rewrite Q in H. destruct H as [H|H]; [discriminate|eauto]. }
    destruct (paused w) eqn:P; [unfold wake; pr; destruct (pc w) eqn:PC|]; fields I; rewrite ?Q, ?PC, ?P in *; cbn [In] in *; try (intros _; exact CL); easy_field.
    intros [H|H]; [discriminate|]. injection H as ->. apply iw_exc. auto.
  - apply winv_fail; assumption.
  - apply winv_fail; assumption.
  - pose proof (skipn_ne _ _ LT) as NE2. fields I; easy_field.
    + intros H. rewrite (iw_input H). rewrite <- app_assoc, (app_assoc (firstn n (wb w))), firstn_skipn. reflexivity.
    + exists (skipn n (wb w) ++ whole (src w)). rewrite (iw_input R), <- app_assoc, (app_assoc (firstn n (wb w))), firstn_skipn. reflexivity.
  - pose proof (iw_input _ _ _ I R) as IN. unfold resume. pr. destruct (paused w) eqn:P; [unfold wake; pr; destruct (pc w) eqn:PC|]; fields I; rewrite ?PC, ?C, ?P in *; easy_field.
    all: try (intros _; cbn [app]; rewrite <- app_assoc; exact IN); try (exists (whole (src w)); rewrite <- app_assoc; exact IN).
  - pose proof (iw_input _ _ _ I R) as IN. pose proof (iw_open _ _ _ I R C) as PC. destruct (iw_closed _ _ _ I PC) as [_ SR].
    assert (QT : forall e, ~ In (CbTLost e) (wq w)) by (intros e H; destruct (iw_tlost _ _ _ I e H); congruence).
    assert (L : conn_lost w = false -> True) by auto.
    unfold resume. pr. destruct (paused w) eqn:P; [unfold wake; pr; rewrite PC|]; fields I; rewrite ?PC, ?C, ?P in *; easy_field.
    all: try (intros _; cbn [app]; rewrite <- app_assoc; exact IN); try (exists (whole (src w)); rewrite <- app_assoc; exact IN).
    all: intros [H|H]; apply in_app_or in H; (destruct H as [H|[H|[]]]; [auto|discriminate]).
Qed.
End Writer.

