(** Tactics to build concrete runs of programs in the monad of AsyncModel (used
    for the examples and counterexamples only). *)
From Verif Require Import AsyncModel AsyncSpec AsyncProofs HarvestModel.

Section G.
Context {X K V : Type}.
Notation world := (world X K V).
Notation M := (@M X K V).
Lemma g_bind {A B} (m : M A) (f : A -> M B) w r1 w1 r w' : m w r1 w1 ->
  match r1 with Ok a => f a w1 r w' | Err e => r = Err e /\ w' = w1 end -> bindM m f w r w'.
Proof. destruct r1; intros H; [left; eauto|intros [-> ->]; right; eauto]. Qed.
Lemma g_try {A} (m : M A) (h : exn -> option (M A)) w r1 w1 r w' : m w r1 w1 ->
  match r1 with
  | Ok a => r = Ok a /\ w' = w1
  | Err e => match h e with Some k => k w1 r w' | None => r = Err e /\ w' = w1 end
  end -> tryM m h w r w'.
Proof. destruct r1; intros H; [intros [-> ->]; left; eauto|intros Q; right; eauto]. Qed.
Lemma g_fin {A} (m : M A) (f : M unit) w r1 w1 r2 r w' : m w r1 w1 -> f w1 r2 w' ->
  r = match r2 with Ok _ => r1 | Err e => Err e end -> finallyM m f w r w'.
Proof. intros H1 H2 ->. exists r1, w1. split; [exact H1|]. destruct r2 as [[]|]; eauto. Qed.
Lemma l_ret {A} (a : A) (w : world) : ret a w (Ok a) w.
Proof. now split. Qed.
Lemma l_raise {A} e (w : world) : raise (A := A) e w (Err e) w.
Proof. now split. Qed.
Lemma l_getM (w : world) : getM w (Ok w) w.
Proof. now split. Qed.
Lemma l_getx {A} (f : X -> A) (w : world) v : f (w_x w) = v -> getx f w (Ok v) w.
Proof. intros <-. now split. Qed.
Lemma l_modM (f : world -> world) w w' : f w = w' -> modM f w (Ok tt) w'.
Proof. intros <-. now split. Qed.
Lemma l_spawn (k : K) (w : world) n w' : List.length (w_tasks w) = n ->
  mk_world (w_tasks w ++ [mk_task k None 0]) (w_x w) (w_hist w) = w' -> spawn k w (Ok n) w'.
Proof. intros <- <-. now split. Qed.
End G.

Ltac vr := vm_compute; reflexivity.
Ltac go :=
  lazymatch goal with
  | |- _ = _ /\ _ = _ => split; vr
  | |- _ = match ?x with _ => _ end => tryif has_evar x then idtac else vr
  | |- _ = _ => try vr
  | |- match ?x with _ => _ end => tryif has_evar x then idtac else (let x' := eval hnf in x in change x with x'; progress cbv beta iota; go)
  | |- ?m ?w ?r ?w' =>
      tryif first [is_evar w | has_evar m] then idtac else
      let m' := eval hnf in m in
      lazymatch m' with
      | bindM ?a ?b => refine (g_bind a b _ _ _ _ _ _ _); [go|go]
      | tryM ?a ?b => refine (g_try a b _ _ _ _ _ _ _); [go|go]
      | finallyM ?a ?b => refine (g_fin a b _ _ _ _ _ _ _ _ _); [go|go|go]
      | ret _ => change (m' w r w'); apply l_ret
      | raise _ => change (m' w r w'); apply l_raise
      | getM => change (m' w r w'); apply l_getM
      | getx _ => change (m' w r w'); eapply l_getx; vr
      | modM _ => change (m' w r w'); eapply l_modM; vr
      | spawn _ => change (m' w r w'); eapply l_spawn; [vr|vr]
      | await_wait ?a ?b ?c ?d ?e => change (m' w r w')
      | await_shield ?a ?b ?i => change (m' w r w')
      | await_task ?a ?b ?i => change (m' w r w')
      | await_yield ?a ?b => change (m' w r w')
      | _ => idtac
      end
  | |- _ => idtac
  end.
(** Resume a suspended wait / shield / sleep(0) by these events. *)
Ltac wait_by l :=
  lazymatch goal with
  | |- await_wait _ _ _ _ _ _ _ _ =>
      refine (b_wait _ _ _ _ _ l _ _ _ _ _ _ _); [vm_compute; discriminate|vr|vm_compute; first [reflexivity|split; reflexivity]]
  | |- await_shield _ _ _ _ _ _ => exists l; eexists; eexists; split; [vr|vm_compute; first [left; split; reflexivity|right; split; [reflexivity|split; [reflexivity|split; reflexivity]]]]
  | |- await_yield _ _ _ _ _ => exists l; eexists; split; [vr|vm_compute; reflexivity]
  end.
#[global] Opaque bindM ret raise getM modM getx tryM finallyM spawn await_wait await_yield await_task await_shield.
