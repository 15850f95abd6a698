(** Lemmas for C56 (uninterrupted). *)
From Verif Require Import AsyncModel AsyncSpec AsyncProofs HarvestModel AsyncInv RunnerModel RunnerProofs6.

Section U.
Context (o : opts) (ext : bool).
Notation rstep := (rstep o).
Notation rfinish := (rfinish ext).
Notation world := (world rx rkind unit).

Definition cancels_in (h : list (hev unit)) : nat :=
  List.length (filter (fun e => match e with HCancel => true | _ => false end) h).

(** What happens during one suspension, seen through the history. *)
Lemma env_step_hist (w : world) e w' c : env_step rstep rfinish w e = Some (w', c) ->
  exists h, w_hist w' = w_hist w ++ h /\ cancels_in h = (if c then 1 else 0)%nat /\ (forall i, ~ In (HReq i) h).
Proof.
  destruct e as [i r|e]; cbn.
  - destruct (nth_error (w_tasks w) i) as [t|]; [|discriminate]. destruct (t_out t); [discriminate|].
    destruct (rfinish (w_x w) t r); [|discriminate]. intros [= <- <-]. exists [HDone i r]. cbn.
    repeat split. intros j [Q|[]]; discriminate.
  - destruct (rstep (w_x w) e) as [[x' c']|]; [|discriminate]. intros [= <- <-]. cbn.
    exists (if c' then [HCancel] else []). destruct c'; cbn; repeat split; intros j Q; [destruct Q as [Q|[]]; discriminate|destruct Q].
Qed.

Lemma wait_hist mode tgt evs : forall (w : world) s w' s',
  wait_run rstep rfinish mode tgt (w, s) evs = Some (w', s') ->
  exists h, w_hist w' = w_hist w ++ h
    /\ (tgt = None -> forall i, ~ In (HReq i) h)
    /\ (cancels_in h = O -> (forall i, ~ In (HReq i) h) /\ s_canc s' = s_canc s)
    /\ (tgt = None -> (0 < cancels_in h)%nat -> s_canc s' = true)
    /\ (s_canc s = true -> s_canc s' = true).
Proof.
  induction evs as [|ev evs IH]; intros w s w' s'; cbn [wait_run].
  { intros [= <- <-]. exists []. rewrite app_nil_r. cbn. repeat split; auto. lia. }
  destruct (wait_step _ _ _ _ _ _) as [[w1 s1]|] eqn:E; [|discriminate]. intros R.
  destruct (IH _ _ _ _ R) as (h & Hh & A & B & C & D). clear IH R.
  assert (E1 : exists h1, w_hist w1 = w_hist w ++ h1
     /\ (tgt = None -> forall i, ~ In (HReq i) h1)
     /\ (cancels_in h1 = O -> (forall i, ~ In (HReq i) h1) /\ s_canc s1 = s_canc s)
     /\ (tgt = None -> (0 < cancels_in h1)%nat -> s_canc s1 = true)
     /\ (s_canc s = true -> s_canc s1 = true)).
  { destruct ev as [e|i|]; cbn [wait_step] in E.
    - destruct (env_step rstep rfinish w e) as [[w2 c]|] eqn:Q; [|discriminate].
      apply env_step_hist in Q as (h1 & H1 & C1 & N1). destruct c.
      + destruct tgt as [i|].
        * destruct (task_done w2 i) eqn:TD.
          -- injection E as <- <-. exists h1. cbn. repeat split; auto; intros; try lia; discriminate.
          -- injection E as <- <-. exists (h1 ++ [HReq i]). unfold req. rewrite TD. cbn. rewrite H1, app_assoc.
             unfold cancels_in in *. rewrite filter_app. cbn. rewrite app_nil_r. repeat split; auto; intros; try lia; discriminate.
        * injection E as <- <-. exists h1. cbn. repeat split; auto; intros; lia.
      + injection E as <- <-. exists h1. repeat split; auto; intros; lia.
    - destruct (_ && _); [|discriminate]. exists []. rewrite app_nil_r. destruct (_ || _); injection E as <- <-; cbn; repeat split; auto; lia.
    - destruct (_ && _); [|discriminate]. injection E as <- <-. exists [HTimer]. cbn. repeat split; auto; intros; try lia.
      + intros [Q|[]]; discriminate.
      + intros [Q|[]]; discriminate. }
  destruct E1 as (h1 & H1 & A1 & B1 & C1 & D1). exists (h1 ++ h). rewrite Hh, H1, app_assoc.
  assert (CA : cancels_in (h1 ++ h) = (cancels_in h1 + cancels_in h)%nat) by (unfold cancels_in; now rewrite filter_app, app_length).
  rewrite CA. repeat split; auto.
  - intros T i Q. apply in_app_or in Q as [Q|Q]; [exact (A1 T i Q)|exact (A T i Q)].
  - intros i Q. assert (cancels_in h1 = O /\ cancels_in h = O) as [Z1 Z2] by lia.
    apply in_app_or in Q as [Q|Q]; [exact (proj1 (B1 Z1) i Q)|exact (proj1 (B Z2) i Q)].
  - assert (cancels_in h1 = O /\ cancels_in h = O) as [Z1 Z2] by lia.
    rewrite (proj2 (B Z2)). apply (B1 Z1).
  - intros T P. destruct (Nat.eq_dec (cancels_in h) 0) as [Z|Z]; [|apply C; auto; lia].
    apply D. apply C1; auto. lia.
Qed.

(** A suspension that ends without the main task being cancelled ends because
    the task awaited is done. *)
Lemma await_shield_hist i (w : world) r w' : await_shield rstep rfinish i w r w' -> task_out w i = None ->
  exists h, w_hist w' = w_hist w ++ h /\ (forall j, ~ In (HReq j) h)
   /\ ((r = Err CancelledError /\ (0 < cancels_in h)%nat)
       \/ (cancels_in h = O /\ exists q, task_out w' i = Some q /\ r = task_result q)).
Proof.
  intros H O0. unfold await_shield in H. rewrite O0 in H. destruct H as (evs & s & q & R & K).
  destruct (wait_hist _ _ _ _ _ _ _ R) as (h & Hh & A & B & C & D). cbn in *.
  exists h. split; [exact Hh|]. split; [auto|].
  destruct K as [(Sc & ->)|(Sc & _ & O1 & ->)].
  - left. split; auto. destruct (cancels_in h) eqn:Z; [|lia]. destruct (B eq_refl) as [_ B2]. congruence.
  - right. split; [|eauto]. destruct (cancels_in h) eqn:Z; auto. rewrite C in Sc; auto; [discriminate|lia].
Qed.
Lemma await_task_hist i (w : world) r w' : await_task rstep rfinish i w r w' ->
  exists h, w_hist w' = w_hist w ++ h
   /\ (cancels_in h = O -> (forall j, ~ In (HReq j) h) /\ exists q, task_out w' i = Some q /\ r = task_result q).
Proof.
  unfold await_task. destruct (task_out w i) as [q|] eqn:O0.
  - intros [-> ->]. exists []. rewrite app_nil_r. split; auto. intros _. split; [intros j []|]. eauto.
  - intros (evs & s & q & R & K). destruct (wait_hist _ _ _ _ _ _ _ R) as (h & Hh & A & B & C & D). cbn in *.
    exists h. split; [exact Hh|]. intros Z. destruct (B Z) as [B1 B2]. split; auto.
    destruct K as [(Sc & ->)|(Sc & _ & O1 & ->)]; [congruence|]. eauto.
Qed.

Lemma cancels_app a b : cancels_in (a ++ b) = (cancels_in a + cancels_in b)%nat.
Proof. unfold cancels_in. now rewrite filter_app, app_length. Qed.

Lemma uninterrupted_hist k (w : world) r w' : uninterrupted o ext k w r w' ->
  exists h, w_hist w' = w_hist w ++ h
   /\ ((cancels_in h <= 1)%nat ->
        (forall j, ~ In (HReq j) h)
        /\ exists q, task_out w' (List.length (w_tasks w)) = Some q
           /\ (cancels_in h = O -> r = task_result q)
           /\ (cancels_in h = 1%nat -> r = Err (match q with TFail e => e | _ => CancelledError end))).
Proof.
  intros H. destruct H as [(i & w0 & [[= ->] ->] & H)|(e & [Q _] & _)]; [|discriminate].
  set (n := List.length (w_tasks w)) in *. set (w0 := mk_world (w_tasks w ++ [mk_task k None 0]) (w_x w) (w_hist w)) in *.
  assert (O0 : task_out w0 n = None).
  { unfold task_out. cbn. rewrite nth_error_app2 by reflexivity. now rewrite Nat.sub_diag. }
  change (w_hist w) with (w_hist w0).
  destruct H as [([] & H1 & ->)|(e & w1 & H1 & H2)].
  - destruct (await_shield_hist _ _ _ _ H1 O0) as (h & Hh & N & [(Q & _)|(Z & q & Oq & Rq)]); [discriminate|].
    exists h. split; [exact Hh|]. intros _. split; [exact N|]. exists q. repeat split; auto. lia.
  - destruct (await_shield_hist _ _ _ _ H1 O0) as (h & Hh & N & [(Q & P)|(Z & q & Oq & Rq)]).
    + injection Q as ->. destruct H2 as [(w2 & w2' & [[= ->] ->] & H2)|(e & [Q _] & _)]; [|discriminate].
      assert (AT : (exists ra, await_task rstep rfinish n w1 ra w' /\ r = Err (match ra with Ok _ => CancelledError | Err e => e end))
                   \/ (task_out w1 n = Some TCancelled /\ r = Err CancelledError /\ w' = w1)).
      { assert (AA : bindM (await_task rstep rfinish n) (fun _ : unit => raise CancelledError) w1 r w' ->
          exists ra, await_task rstep rfinish n w1 ra w' /\ r = Err (match ra with Ok _ => CancelledError | Err e => e end)).
        { intros [([] & wb & A & [-> ->])|(e & A & ->)]; [exists (Ok tt)|exists (Err e)]; auto. }
        destruct (task_out w1 n) as [[| |]|]; auto. }
      destruct AT as [(ra & A & ->)|(O1 & -> & ->)].
      * destruct (await_task_hist _ _ _ _ A) as (h2 & Hh2 & B). exists (h ++ h2). rewrite Hh2, Hh, app_assoc. split; auto.
        rewrite cancels_app. intros L. destruct B as (B1 & q & Oq & ->); [lia|]. split.
        { intros j Q. apply in_app_or in Q as [Q|Q]; [exact (N j Q)|exact (B1 j Q)]. }
        exists q. split; auto. split; [lia|]. intros _. now destruct q.
      * exists h. split; [exact Hh|]. intros L. split; [exact N|]. exists TCancelled. repeat split; auto; lia.
    + assert (KK : r = Err e /\ w' = w1 \/ e = CancelledError /\ q = TCancelled /\ r = Err CancelledError /\ w' = w1
                  \/ q = TFail CancelledError /\ e = CancelledError).
      { destruct e; auto; destruct q as [[]|e1|]; cbn in Rq; try discriminate.
        - right; right. injection Rq as <-. auto.
        - right; left. destruct H2 as [(w2 & w2' & [[= ->] ->] & H2)|(e & [Q _] & _)]; [|discriminate].
          rewrite Oq in H2. destruct H2 as [-> ->]. auto. }
      destruct KK as [(-> & ->)|[(-> & -> & -> & ->)|(-> & ->)]].
      * exists h. split; [exact Hh|]. intros _. split; [exact N|]. exists q. repeat split; auto. lia.
      * exists h. split; [exact Hh|]. intros _. split; [exact N|]. exists TCancelled. repeat split; auto.
      * destruct H2 as [(w2 & w2' & [[= ->] ->] & H2)|(e & [Q _] & _)]; [|discriminate].
        rewrite Oq in H2. destruct H2 as [(a & wb & A & [-> ->])|(e & A & ->)];
          unfold await_task in A; rewrite Oq in A; destruct A as [A ->]; [discriminate|]. injection A as ->.
        exists h. split; [exact Hh|]. intros _. split; [exact N|]. exists (TFail CancelledError). repeat split; auto.
Qed.


(** A launch that nobody asked to cancel does not end cancelled. *)
Definition creq_ok (w0 w : world) : Prop :=
  exists h, w_hist w = w_hist w0 ++ h /\
  forall t, nth_error (w_tasks w) (List.length (w_tasks w0)) = Some t ->
    ((0 < t_creq t)%nat -> exists j, In (HReq j) h)
    /\ (t_kind t = KExec -> t_out t = Some TCancelled -> (0 < t_creq t)%nat).
Lemma creq_ok_stable w0 : ext = false -> stable rstep rfinish (creq_ok w0).
Proof.
  intros Ex. constructor.
  - intros w ev w' c (h & Hh & A) E. destruct ev as [i r|e]; cbn in E.
    + destruct (nth_error (w_tasks w) i) as [t|] eqn:N; [|discriminate]. destruct (t_out t); [discriminate|].
      destruct (rfinish (w_x w) t r) eqn:F; [|discriminate]. injection E as <- <-. exists (h ++ [HDone i r]). cbn.
      rewrite Hh, app_assoc. split; auto. intros u Nu. destruct (Nat.eq_dec i (List.length (w_tasks w0))) as [->|Ne].
      * rewrite (nth_upd_same _ _ _ _ N) in Nu. injection Nu as <-. cbn. destruct (A t N) as [A1 A2]. split.
        { intros P. destruct (A1 P) as [j Q]. exists j. apply in_or_app; auto. }
        intros K [= ->]. unfold RunnerModel.rfinish in F. rewrite K, Ex in F. cbn in F.
        destruct (t_creq t); [discriminate|lia].
      * rewrite nth_upd_other in Nu by auto. destruct (A u Nu) as [A1 A2]. split; auto.
        intros P. destruct (A1 P) as [j Q]. exists j. apply in_or_app; auto.
    + destruct (rstep (w_x w) e) as [[x' c']|]; [|discriminate]. injection E as <- <-. cbn.
      exists (h ++ if c' then [HCancel] else []). cbn. rewrite Hh, app_assoc. split; auto.
      intros u Nu. destruct (A u Nu) as [A1 A2]. split; auto. intros P. destruct (A1 P) as [j Q]. exists j. apply in_or_app; auto.
  - intros w (h & Hh & A). exists (h ++ [HTimer]). cbn. rewrite Hh, app_assoc. split; auto.
    intros u Nu. destruct (A u Nu) as [A1 A2]. split; auto. intros P. destruct (A1 P) as [j Q]. exists j. apply in_or_app; auto.
  - intros w i (h & Hh & A). unfold req. destruct (task_done w i); [exists h; auto|].
    exists (h ++ [HReq i]). cbn. rewrite Hh, app_assoc. split; auto. intros u Nu. split.
    + intros _. exists i. apply in_or_app. right. left. auto.
    + destruct (Nat.eq_dec i (List.length (w_tasks w0))) as [->|Ne].
      * destruct (nth_error (w_tasks w) (List.length (w_tasks w0))) as [t|] eqn:N; [|rewrite (nth_upd_none _ _ _ N), N in Nu; discriminate].
        rewrite (nth_upd_same _ _ _ _ N) in Nu. injection Nu as <-. cbn. lia.
      * rewrite nth_upd_other in Nu by auto. apply (A u Nu).
  - intros w k (h & Hh & A). exists h. split; auto. intros u Nu. cbn in Nu.
    destruct (Nat.lt_ge_cases (List.length (w_tasks w0)) (List.length (w_tasks w))) as [L|L].
    + rewrite nth_error_app1 in Nu by auto. auto.
    + rewrite nth_error_app2 in Nu by auto. destruct (_ - _)%nat as [|[|]]; cbn in Nu; try discriminate.
      injection Nu as <-. cbn. split; [lia|discriminate].
Qed.

Lemma uninterrupted_not_cancelled (w : world) r w' h : ext = false -> uninterrupted o ext KExec w r w' ->
  w_hist w' = w_hist w ++ h -> (forall j, ~ In (HReq j) h) ->
  (forall t, nth_error (w_tasks w') (List.length (w_tasks w)) = Some t -> t_kind t = KExec) ->
  task_out w' (List.length (w_tasks w)) <> Some TCancelled.
Proof.
  intros Ex H Hh N K. pose proof (k_uninterrupted o ext _ (creq_ok_stable w Ex)) as KU.
  assert (P0 : creq_ok w w).
  { exists []. rewrite app_nil_r. split; auto. intros t Nt.
    exfalso. assert (List.length (w_tasks w) < List.length (w_tasks w))%nat; [|lia]. apply nth_error_Some. congruence. }
  destruct (KU _ _ _ P0 H) as (h' & Hh' & A). assert (h' = h) as -> by (apply (app_inv_head (w_hist w)); congruence).
  unfold task_out. destruct (nth_error (w_tasks w') (List.length (w_tasks w))) as [t|] eqn:Nt; [|discriminate].
  intros Q. destruct (A t eq_refl) as [A1 A2]. specialize (A2 (K t eq_refl) Q). destruct (A1 A2) as [j B]. exact (N j B).
Qed.

(** The launch task keeps its kind. *)
Lemma uninterrupted_kind (w : world) r w' : uninterrupted o ext KExec w r w' ->
  forall t, nth_error (w_tasks w') (List.length (w_tasks w)) = Some t -> t_kind t = KExec.
Proof.
  intros H. destruct H as [(i & w0 & [[= ->] ->] & H)|(e & [Q _] & _)]; [|discriminate].
  set (n := List.length (w_tasks w)) in *. set (w0 := mk_world (w_tasks w ++ [mk_task KExec None 0]) (w_x w) (w_hist w)) in *.
  set (P := fun w1 : world => exists t, nth_error (w_tasks w1) n = Some t /\ t_kind t = KExec).
  assert (SP : stable rstep rfinish P).
  { unfold P. constructor.
    - intros u ev u' c (t & Nt & K) E. apply env_step_ext in E as (h & (_ & X & _) & _). destruct (X n t Nt) as (t' & N' & K' & _). exists t'. split; [exact N'|congruence].
    - intros u H0. exact H0.
    - intros u i (t & Nt & K). destruct (extends_req u i) as (h & (_ & X & _) & _). destruct (X n t Nt) as (t' & N' & K' & _). exists t'. split; [exact N'|congruence].
    - intros u k (t & Nt & K). exists t. split; [|exact K]. cbn. rewrite nth_error_app1; [exact Nt|]. apply nth_error_Some. congruence. }
  assert (P0 : P w0).
  { exists (mk_task KExec None 0). split; auto. cbn. rewrite nth_error_app2 by reflexivity. now rewrite Nat.sub_diag. }
  assert (P1 : P w').
  { assert (KK : keeps P (tryM (await_shield rstep rfinish n) (fun e => match e with
                 | CancelledError =>
                     Some (bindM getM (fun w =>
                           match task_out w n with
                           | Some TCancelled => raise CancelledError
                           | _ => bindM (await_task rstep rfinish n) (fun _ => raise CancelledError)
                           end))
                 | _ => None
                 end))).
    { apply k_try; [exact (k_await_shield _ _ P SP _)|].
      intros e k. destruct e; try discriminate. intros [= <-]. apply k_bind; [apply k_get|]. intros u.
      assert (Q : keeps P (bindM (await_task rstep rfinish n) (fun _ : unit => raise (A := unit) CancelledError))).
      { apply k_bind; [exact (k_await_task _ _ P SP _)|]. intros; apply k_raise. }
      destruct (task_out u n) as [[| |]|]; auto. apply k_raise. }
    exact (KK _ _ _ P0 H). }
  intros t Nt. destruct P1 as (t' & Nt' & K). congruence.
Qed.

Lemma uninterrupted_ended k (w : world) r w' : uninterrupted o ext k w r w' ->
  exists q, task_out w' (List.length (w_tasks w)) = Some q /\ (r = Ok tt -> q = TValue tt)
    /\ (forall e, r = Err e -> e = CancelledError \/ q = TFail e).
Proof.
  intros H. destruct H as [(i & w0 & [[= ->] ->] & H)|(e & [Q _] & _)]; [|discriminate].
  set (n := List.length (w_tasks w)) in *. set (w0 := mk_world (w_tasks w ++ [mk_task k None 0]) (w_x w) (w_hist w)) in *.
  assert (O0 : task_out w0 n = None).
  { unfold task_out. cbn. rewrite nth_error_app2 by reflexivity. now rewrite Nat.sub_diag. }
  destruct H as [([] & H1 & ->)|(e & w1 & H1 & H2)].
  - destruct (await_shield_hist _ _ _ _ H1 O0) as (h & Hh & N & [(Q & _)|(Z & q & Oq & Rq)]); [discriminate|].
    exists q. split; auto. split; [|discriminate]. intros _. destruct q as [[]| |]; cbn in Rq; try discriminate. auto.
  - destruct (match e with CancelledError => true | _ => false end) eqn:EC.
    + assert (e = CancelledError) as -> by (destruct e; auto; discriminate).
      destruct H2 as [(w2 & w2' & [[= ->] ->] & H2)|(e & [Q _] & _)]; [|discriminate].
      assert (AT : (exists ra, await_task rstep rfinish n w1 ra w' /\ r = Err (match ra with Ok _ => CancelledError | Err e => e end))
                   \/ (task_out w1 n = Some TCancelled /\ r = Err CancelledError /\ w' = w1)).
      { assert (AA : bindM (await_task rstep rfinish n) (fun _ : unit => raise CancelledError) w1 r w' ->
          exists ra, await_task rstep rfinish n w1 ra w' /\ r = Err (match ra with Ok _ => CancelledError | Err e => e end)).
        { intros [([] & wb & A & [-> ->])|(e & A & ->)]; [exists (Ok tt)|exists (Err e)]; auto. }
        destruct (task_out w1 n) as [[| |]|]; auto. }
      destruct AT as [(ra & A & ->)|(O1 & -> & ->)].
      * assert (D : exists r2, task_out w' n = Some r2 /\ (ra = Err CancelledError \/ ra = task_result r2)).
        { unfold await_task in A. destruct (task_out w1 n) as [r2|] eqn:O.
          - destruct A as [-> ->]. eauto.
          - destruct A as (evs2 & s2 & r2 & R2 & [(Sc2 & ->)|(Sc2 & _ & O2 & ->)]).
            + apply wait_run_target in R2 as [T _]; [|discriminate]. apply T in Sc2. apply task_done_out in Sc2 as (r3 & O3). eauto.
            + eauto. }
        destruct D as (r2 & O2 & RA). exists r2. split; auto. split; [discriminate|].
        intros e [= <-]. destruct RA as [->| ->]; auto. destruct r2; cbn; auto.
      * exists TCancelled. repeat split; auto; [discriminate|]. intros e [= <-]. auto.
    + assert (r = Err e /\ w' = w1) as [-> ->] by (destruct e; auto; discriminate).
      destruct (await_shield_hist _ _ _ _ H1 O0) as (h & Hh & N & [(Q & _)|(Z & q & Oq & Rq)]).
      * injection Q as ->. discriminate.
      * exists q. repeat split; auto; [discriminate|]. intros e' [= <-]. destruct q; cbn in Rq; try discriminate; injection Rq as ->; auto.
Qed.
End U.
