From Verif Require Import AsyncModel AsyncSpec AsyncProofs HarvestModel HarvestSpec HarvestProofs HarvestProofs2 AsyncInv
  RunnerModel RunnerSpec RunnerProofs RunnerProofs2 RunnerProofs3 AuditModel.
Open Scope Z_scope.

(** Inclusion of the runs of one program in those of another. *)
Section Sub.
Context {X K V : Type}.
Notation world := (world X K V).
Notation M := (@M X K V).
Definition sub {A} (m1 m2 : M A) : Prop := forall w r w', m1 w r w' -> m2 w r w'.
Lemma s_refl {A} (m : M A) : sub m m.
Proof. intros w r w' H. exact H. Qed.
Lemma s_bind {A B} (m1 m2 : M A) (f1 f2 : A -> M B) : sub m1 m2 -> (forall a, sub (f1 a) (f2 a)) -> sub (bindM m1 f1) (bindM m2 f2).
Proof. intros H G w r w' [(a & w1 & H1 & H2)|(e & H1 & ->)]; [left; exists a, w1; split; [now apply H|now apply G]|right; exists e; split; [now apply H|reflexivity]]. Qed.
Lemma s_try {A} (m1 m2 : M A) (h1 h2 : exn -> option (M A)) : sub m1 m2 ->
  (forall e, match h1 e, h2 e with Some k1, Some k2 => sub k1 k2 | None, None => True | _, _ => False end) -> sub (tryM m1 h1) (tryM m2 h2).
Proof.
  intros H G w r w' [(a & H1 & ->)|(e & w1 & H1 & H2)]; [left; exists a; split; [now apply H|reflexivity]|right; exists e, w1; split; [now apply H|]].
  specialize (G e). destruct (h1 e), (h2 e); try destruct G; auto.
Qed.
Lemma s_finally {A} (m1 m2 : M A) (f1 f2 : M unit) : sub m1 m2 -> sub f1 f2 -> sub (finallyM m1 f1) (finallyM m2 f2).
Proof.
  intros H G w r w' (r1 & w1 & H1 & [(H2 & ->)|(e & H2 & ->)]); exists r1, w1; (split; [now apply H|]); [left|right; exists e]; (split; [now apply G|reflexivity]).
Qed.
End Sub.

Section R.
Context (cb : phase -> res unit -> Prop).
Context (o : opts) (ext piped_stdin use_pty : bool).
Context (out_bytes err_bytes : option bytes) (enc : text).
Notation world := (world rx rkind unit).
Notation M := (@M rx rkind unit).
Notation rstep := (rstep o).
Notation rfinish := (rfinish ext).
Notation harvest := (harvest rstep rfinish).
Notation callback := (callback cb o).
Notation call_audit := (call_audit cb o).
Notation signal_cb := (signal_cb cb o).
Notation kill_wait_cb := (kill_wait_cb cb o ext).
Notation kill_cb := (kill_cb cb o ext).
Notation wait_cb := (wait_cb cb o ext).
Notation finish_cb := (finish_cb cb o ext piped_stdin).
Notation aexit_cb := (aexit_cb cb o ext piped_stdin).
Notation start_cb := (start_cb cb o ext use_pty).
Notation aenter_cb := (aenter_cb cb o ext use_pty out_bytes err_bytes enc).
Notation with_run_cb := (with_run_cb cb o ext piped_stdin use_pty out_bytes err_bytes enc).
Notation kill_wait := (kill_wait o ext).
Notation kill := (kill o ext).
Notation wait := (wait o ext).
Notation close := (close o ext piped_stdin).
Notation finish := (finish o ext piped_stdin).
Notation aexit := (aexit o ext piped_stdin).
Notation start := (start o ext use_pty).
Notation aenter := (aenter o ext use_pty out_bytes err_bytes enc).
Notation with_run := (with_run o ext piped_stdin use_pty out_bytes err_bytes enc).
Notation any_body := (any_body o ext).

Lemma signal_send sig x : signal_x o sig x = send sig (audit o (PSignal sig) x).
Proof. reflexivity. Qed.

(** ** A callback that may return *)
Section May.
Context (may : forall p, cb p (Ok tt)).
Lemma callback_ok p (w : world) : callback p w (Ok tt) w.
Proof. split; [reflexivity|]. destruct (o_audit_callback o); [apply may|reflexivity]. Qed.
Lemma s_signal sig : sub (signal o sig) (signal_cb sig).
Proof.
  apply s_bind; [apply s_refl|]. intros _ w r w' [-> ->]. left. exists tt, (upd_x w (audit o (PSignal sig))). split; [|now split].
  left. exists tt, (upd_x w (audit o (PSignal sig))). split; [now split|apply callback_ok].
Qed.
Lemma s_kill_wait : sub kill_wait kill_wait_cb.
Proof.
  apply s_bind; [apply s_refl|]. intros _. apply s_bind; [apply s_refl|]. intros [z|]; [apply s_refl|].
  apply s_try; [apply s_bind; [apply s_signal|intros; apply s_refl]|]. intros e. destruct e; try exact Logic.I; apply s_refl.
Qed.
Lemma s_kill : sub kill kill_cb.
Proof.
  apply s_bind; [apply s_refl|]. intros _. apply s_try.
  - apply s_bind; [|intros; apply s_refl]. apply s_bind; [apply s_refl|]. intros [z|]; [apply s_refl|apply s_signal].
  - intros e. destruct e; try (apply s_bind; [apply s_kill_wait|intros; apply s_refl]); try exact s_kill_wait.
    apply s_bind; [apply s_refl|intros; apply s_kill_wait].
Qed.
Lemma s_wait : sub wait wait_cb.
Proof.
  apply s_bind; [apply s_refl|]. intros _. apply s_try; [apply s_refl|].
  intros e. destruct e; cbn; try exact Logic.I; (apply s_bind; [apply s_refl|]; intros _; apply s_bind; [first [exact s_kill|apply s_refl]|]; intros _; first [apply s_refl|exact s_kill]).
Qed.
Lemma s_finish exc : sub (finish exc) (finish_cb exc).
Proof.
  apply s_bind; [apply s_refl|]. intros _. apply s_finally; [|apply s_refl]. destruct exc as [e|].
  - apply s_bind; [apply s_refl|]. intros _. apply s_bind; [exact s_kill|intros; apply s_refl].
  - apply s_bind; [exact s_wait|intros; apply s_refl].
Qed.
Lemma s_aexit exc : sub (aexit exc) (aexit_cb exc).
Proof.
  apply s_bind; [|intros; apply s_refl]. apply s_finally.
  - apply s_try; [exact (s_finish exc)|]. intros e. destruct e; try exact Logic.I; apply s_refl.
  - apply s_bind; [apply s_refl|]. intros _ w r w' [-> ->]. left. eexists tt, _. split; [split; reflexivity|apply callback_ok].
Qed.
Lemma s_start : sub start start_cb.
Proof.
  apply s_bind; [apply s_refl|]. intros _. apply s_bind; [|intros; apply s_refl]. apply s_try; [apply s_refl|].
  intros e. destruct (_ || _); [|exact Logic.I]. apply s_bind; [apply s_refl|]. intros _. apply s_bind; [|intros; apply s_refl].
  apply s_bind; [apply s_refl|]. intros []; [exact s_kill|apply s_refl].
Qed.
Lemma s_audit {B} p (k1 k2 : M B) : sub k1 k2 -> sub (bindM (modx (audit o p)) (fun _ => k1)) (bindM (call_audit p) (fun _ => k2)).
Proof.
  intros H w r w' Q. apply i_modx in Q. left. exists tt, (upd_x w (audit o p)). split; [|now apply H].
  left. exists tt, (upd_x w (audit o p)). split; [now split|apply callback_ok].
Qed.
Lemma s_aenter : sub aenter aenter_cb.
Proof.
  apply s_audit. apply s_finally; [|apply s_refl]. apply s_try; [exact s_start|].
  intros e. apply s_bind; [apply s_refl|]. intros _. apply s_audit. apply s_refl.
Qed.
Lemma s_with_run body : sub (with_run body) (with_run_cb body).
Proof.
  apply s_bind; [exact s_aenter|]. intros _ w r w' (rb & w1 & H1 & H2). exists rb, w1. split; [exact H1|]. destruct rb as [a|e].
  - revert H2. apply s_bind; [apply s_aexit|intros; apply s_refl].
  - revert H2. apply s_bind; [apply s_aexit|intros; apply s_refl].
Qed.
End May.

(** ** A callback that returns whenever a signal is reported *)
Section Quiet.
Context (qs : forall s r, cb (PSignal s) r -> r = Ok tt).
Lemma callback_run p (w : world) r w' : callback p w r w' -> w' = w /\ (r = Ok tt \/ (o_audit_callback o <> None /\ cb p r)).
Proof. intros [-> H]. split; [reflexivity|]. destruct (o_audit_callback o); [right; split; [discriminate|exact H]|now left]. Qed.
Lemma u_signal sig : sub (signal_cb sig) (signal o sig).
Proof.
  apply s_bind; [apply s_refl|]. intros _ w r w' [([] & w1 & H1 & [-> ->])|(e & H1 & ->)]; apply i_modx in H1; apply callback_run in H1 as [-> H1].
  - now split.
  - destruct H1 as [H1|[_ H1]]; [discriminate|]. apply qs in H1. discriminate.
Qed.
Lemma u_kill_wait : sub kill_wait_cb kill_wait.
Proof.
  apply s_bind; [apply s_refl|]. intros _. apply s_bind; [apply s_refl|]. intros [z|]; [apply s_refl|].
  apply s_try; [apply s_bind; [apply u_signal|intros; apply s_refl]|]. intros e. destruct e; try exact Logic.I; apply s_refl.
Qed.
Lemma u_kill : sub kill_cb kill.
Proof.
  apply s_bind; [apply s_refl|]. intros _. apply s_try.
  - apply s_bind; [|intros; apply s_refl]. apply s_bind; [apply s_refl|]. intros [z|]; [apply s_refl|apply u_signal].
  - intros e. destruct e; try (apply s_bind; [apply u_kill_wait|intros; apply s_refl]); try exact u_kill_wait.
    apply s_bind; [apply s_refl|intros; apply u_kill_wait].
Qed.
Lemma u_wait : sub wait_cb wait.
Proof.
  apply s_bind; [apply s_refl|]. intros _. apply s_try; [apply s_refl|].
  intros e. destruct e; cbn; try exact Logic.I; (apply s_bind; [apply s_refl|]; intros _; apply s_bind; [first [exact u_kill|apply s_refl]|]; intros _; first [apply s_refl|exact u_kill]).
Qed.
Lemma u_finish exc : sub (finish_cb exc) (finish exc).
Proof.
  apply s_bind; [apply s_refl|]. intros _. apply s_finally; [|apply s_refl]. destruct exc as [e|].
  - apply s_bind; [apply s_refl|]. intros _. apply s_bind; [exact u_kill|intros; apply s_refl].
  - apply s_bind; [exact u_wait|intros; apply s_refl].
Qed.
Lemma u_start : sub start_cb start.
Proof.
  apply s_bind; [apply s_refl|]. intros _. apply s_bind; [|intros; apply s_refl]. apply s_try; [apply s_refl|].
  intros e. destruct (_ || _); [|exact Logic.I]. apply s_bind; [apply s_refl|]. intros _. apply s_bind; [|intros; apply s_refl].
  apply s_bind; [apply s_refl|]. intros []; [exact u_kill|apply s_refl].
Qed.
(** The callback's exception replaces whatever else would have come out. *)
Definition raised (p : phase) (e : exn) : Prop := o_audit_callback o <> None /\ cb p (Err e).
Lemma u_aexit exc w r w' : aexit_cb exc w r w' -> exists r0, aexit exc w r0 w' /\ (r = r0 \/ exists e, r = Err e /\ raised (PStop None) e).
Proof.
  set (h := fun e => match e with CancelledError => Some (bindM set_cancelled (fun _ => ret false)) | _ => None end).
  set (mid := fun x => set_inside false (audit o (PStop None) x)).
  set (tl := fun suppress : bool => bindM (getx (fun x => x_cancelled x && x_timed_out x && negb (o_catch_cancelled o))) (fun t : bool => if t then raise TimeoutError else ret suppress) : M bool).
  assert (T : sub (tryM (finish_cb exc) h) (tryM (finish exc) h)).
  { apply s_try; [exact (u_finish exc)|]. intros e. destruct (h e); [apply s_refl|exact Logic.I]. }
  assert (FC : forall u ru u', bindM stop_timer (fun _ => bindM (modx mid) (fun _ => callback (PStop None))) u ru u' ->
    bindM stop_timer (fun _ => modx mid) u (Ok tt) u' /\ (ru = Ok tt \/ exists e, ru = Err e /\ raised (PStop None) e)).
  { intros u ru u' H. apply i_modx, i_modx in H. apply callback_run in H as [-> H]. split.
    - left. eexists tt, _. split; [split; reflexivity|]. split; reflexivity.
    - destruct H as [H|[A H]]; [now left|]. destruct ru as [[]|e]; [now left|right]. exists e. split; [reflexivity|now split]. }
  intros H. change (bindM (finallyM (tryM (finish_cb exc) h) (bindM stop_timer (fun _ => bindM (modx mid) (fun _ => callback (PStop None))))) tl w r w') in H.
  change (exists r0, bindM (finallyM (tryM (finish exc) h) (bindM stop_timer (fun _ => modx mid))) tl w r0 w' /\ (r = r0 \/ exists e, r = Err e /\ raised (PStop None) e)).
  destruct H as [(b & w1 & (r1 & wf & H1 & [(H2 & Q)|(e & _ & Q)]) & H3)|(e & (r1 & wf & H1 & [(H2 & Q)|(e1 & H2 & Q)]) & ->)]; try discriminate Q.
  - apply T in H1. apply FC in H2 as [H2 _]. exists r. split; [|now left]. left. exists b, w1. split; [|exact H3]. exists r1, wf. split; [exact H1|]. left. now split.
  - apply T in H1. apply FC in H2 as [H2 _]. exists (Err e). split; [|now left]. right. exists e. split; [|reflexivity]. exists r1, wf. split; [exact H1|]. left. now split.
  - injection Q as ->. apply T in H1. apply FC in H2 as [H2 R]. destruct R as [R|(e2 & R & RA)]; [discriminate|]. injection R as <-.
    destruct r1 as [b|e].
    + assert (Q : exists r0, tl b w' r0 w').
      { unfold tl. destruct (x_cancelled (w_x w') && x_timed_out (w_x w') && negb (o_catch_cancelled o)) eqn:C.
        - exists (Err TimeoutError). left. eexists true, w'. split; [split; [now rewrite C|reflexivity]|now split].
        - exists (Ok b). left. eexists false, w'. split; [split; [now rewrite C|reflexivity]|now split]. }
      destruct Q as (r0 & Q). exists r0. split; [|right; exists e1; now split]. left. exists b, w'. split; [|exact Q]. exists (Ok b), wf. split; [exact H1|]. left. now split.
    + exists (Err e). split; [|right; exists e1; now split]. right. exists e. split; [|reflexivity]. exists (Err e), wf. split; [exact H1|]. left. now split.
Qed.
Lemma u_aenter w r w' : aenter_cb w r w' ->
  (exists e, r = Err e /\ raised PStart e /\ w' = upd_x w (audit o PStart))
  \/ exists r0, aenter w r0 w' /\ (r = r0 \/ exists e e1 e0, r = Err e /\ r0 = Err e1 /\ raised (PStop (Some e0)) e).
Proof.
  set (fi := bindM (getx (fun x => x_cancelled x && o_catch_cancelled o)) (fun b : bool => if b then bindM (run_result o out_bytes err_bytes enc true) (fun _ => ret tt) else ret tt) : M unit).
  set (hc := fun e => Some (bindM stop_timer (fun _ => bindM (call_audit (PStop (Some e))) (fun _ => raise e))) : option (M unit)).
  set (h := fun e => Some (bindM stop_timer (fun _ => bindM (modx (audit o (PStop (Some e)))) (fun _ => raise e))) : option (M unit)).
  intros H. change (bindM (call_audit PStart) (fun _ => finallyM (tryM start_cb hc) fi) w r w') in H.
  change ((exists e, r = Err e /\ raised PStart e /\ w' = upd_x w (audit o PStart)) \/ exists r0, bindM (modx (audit o PStart)) (fun _ => finallyM (tryM start h) fi) w r0 w' /\ (r = r0 \/ exists e e1 e0, r = Err e /\ r0 = Err e1 /\ raised (PStop (Some e0)) e)).
  destruct H as [([] & w1 & H1 & H2)|(e & H1 & ->)]; apply i_modx in H1; apply callback_run in H1 as [-> H1].
  2:{ left. exists e. split; [reflexivity|]. split; [|reflexivity]. destruct H1 as [H1|[A H1]]; [discriminate|]. now split. }
  right. assert (HM : forall r0 w2, finallyM (tryM start h) fi (upd_x w (audit o PStart)) r0 w2 -> bindM (modx (audit o PStart)) (fun _ => finallyM (tryM start h) fi) w r0 w2).
  { intros r0 w2 Q. left. exists tt, (upd_x w (audit o PStart)). split; [now split|exact Q]. }
  destruct H2 as (r1 & w1 & H2 & H3).
  assert (T : exists r2, tryM start h (upd_x w (audit o PStart)) r2 w1 /\ (r1 = r2 \/ exists e e1 e0, r1 = Err e /\ r2 = Err e1 /\ raised (PStop (Some e0)) e)).
  { destruct H2 as [(a & H2 & ->)|(e & w0 & H2 & HH)]; [exists (Ok a); split; [left; exists a; split; [now apply u_start|reflexivity]|now left]|].
    apply u_start in H2. cbn [hc] in HH. apply i_modx in HH. exists (Err e). split.
    - right. exists e, w0. split; [exact H2|]. cbn [h]. left. eexists tt, _. split; [split; reflexivity|].
      left. eexists tt, _. split; [split; reflexivity|]. split; [reflexivity|].
      destruct HH as [([] & w2 & H4 & [_ ->])|(e2 & H4 & _)]; apply i_modx in H4; apply callback_run in H4 as [-> _]; reflexivity.
    - destruct HH as [([] & w2 & H4 & [-> _])|(e2 & H4 & ->)]; [now left|right]. apply i_modx in H4. apply callback_run in H4 as [_ H4].
      destruct H4 as [H4|[A H4]]; [discriminate|]. exists e2, e, e. split; [reflexivity|]. split; [reflexivity|]. now split. }
  destruct T as (r2 & T & RR). destruct H3 as [(H3 & ->)|(e & H3 & ->)].
  - exists r2. split; [apply HM; exists r2, w1; split; [exact T|]; left; now split|]. destruct RR as [->|RR]; [now left|now right].
  - exists (Err e). split; [apply HM; exists r2, w1; split; [exact T|]; right; exists e; now split|now left].
Qed.
Lemma u_with_run body w r w' : with_run_cb body w r w' ->
  (exists e, r = Err e /\ raised PStart e /\ w' = upd_x w (audit o PStart))
  \/ exists r0, with_run body w r0 w' /\ (r = r0 \/ exists e f, r = Err e /\ raised (PStop f) e).
Proof.
  intros [([] & w1 & H1 & (rb & w2 & H2 & H3))|(e & H1 & ->)]; apply u_aenter in H1.
  - destruct H1 as [(e & Q & _)|(r0 & H1 & [<-|(e & e1 & e0 & Q & _)])]; try discriminate Q. right.
    assert (HM : forall r0, (match rb with Ok _ => bindM (aexit None) (fun _ => ret tt) | Err e => bindM (aexit (Some e)) (fun suppress : bool => if suppress then ret tt else raise e) end : M unit) w2 r0 w' -> with_run body w r0 w').
    { intros r0 Q. left. exists tt, w1. split; [exact H1|]. exists rb, w2. split; [exact H2|]. destruct rb; exact Q. }
    destruct rb as [[]|e]; (destruct H3 as [(b & w3 & H3 & H4)|(e2 & H3 & ->)]; apply u_aexit in H3 as (r0 & H3 & RR)).
    + destruct RR as [<-|(e & Q & _)]; [|discriminate Q]. exists r. split; [|now left]. apply HM. left. exists b, w3. now split.
    + destruct r0 as [b|e3].
      * destruct RR as [Q|RR]; [discriminate Q|]. exists (Ok tt). split; [apply HM; left; exists b, w'; split; [exact H3|now split]|]. right. destruct RR as (e & [= <-] & RA). eauto.
      * exists (Err e3). split; [apply HM; right; exists e3; now split|]. destruct RR as [[= ->]|(e & [= <-] & RA)]; [now left|right; eauto].
    + destruct RR as [<-|(e3 & Q & _)]; [|discriminate Q]. exists r. split; [|now left]. apply HM. left. exists b, w3. now split.
    + destruct r0 as [b|e3].
      * destruct RR as [Q|RR]; [discriminate Q|]. destruct b; [exists (Ok tt)|exists (Err e)]; (split; [apply HM; left; eexists _, w'; split; [exact H3|now split]|]); right; destruct RR as (e4 & [= <-] & RA); eauto.
      * exists (Err e3). split; [apply HM; right; exists e3; now split|]. destruct RR as [[= ->]|(e4 & [= <-] & RA)]; [now left|right; eauto].
  - destruct H1 as [(e1 & [= <-] & RA & ->)|(r0 & H1 & RR)]; [left; exists e; now split|right].
    destruct RR as [<-|(e1 & e2 & e0 & [= <-] & -> & RA)].
    + exists (Err e). split; [right; exists e; now split|now left].
    + exists (Err e2). split; [right; exists e2; now split|right; eauto].
Qed.
End Quiet.
End R.
