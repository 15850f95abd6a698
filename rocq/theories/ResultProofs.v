From Verif Require Import ResultModel ResultSpec.
Open Scope Z_scope.

Lemma compare_result_spec a item :
  compare_result (Some a) item = if negb (r_cancelled a) && r_cancelled item then a else item.
Proof.
  unfold compare_result, pair_ge. cbn [fst snd].
  destruct (r_cancelled a), (r_cancelled item), (r_exit a =? 0); reflexivity.
Qed.

Definition failedb (r : result) : bool := negb (r_cancelled r) && negb (r_exit r =? 0).
Lemma failedb_iff r : failedb r = true <-> failed r.
Proof.
  unfold failedb, failed. rewrite andb_true_iff, !negb_true_iff, Z.eqb_neq. tauto.
Qed.
Lemma failedb_false r : failedb r = false <-> ~ failed r.
Proof. rewrite <- failedb_iff. destruct (failedb r); split; congruence. Qed.

Lemma get_result_carries o r : carries o r -> get_result o = Ok r.
Proof. intros [->| ->]; reflexivity. Qed.

(** Invariant of the scan: [acc] is the key of the results seen so far and is
    not a failure. *)
Definition seen_key (seen : list result) (a : result) : Prop :=
  (forall x, In x seen -> ~ failed x) /\ key_of seen a.

Lemma find_key_step os rs : Forall2 carries os rs -> forall seen acc,
  (match acc with None => seen = [] | Some a => seen_key seen a end) -> (acc = None -> rs <> []) ->
  exists k, find_key os acc = Ok k /\ key_of (seen ++ rs) k.
Proof.
  induction 1 as [|o r os rs Ho Hs IH]; intros seen acc Hacc Hne.
  - destruct acc as [a|]; [|now destruct Hne]. exists a. cbn. rewrite app_nil_r. split; [reflexivity|apply Hacc].
  - cbn [find_key]. rewrite (get_result_carries _ _ Ho).
    set (a := compare_result acc r).
    assert (Ha : if failedb a then (a = r /\ forall x, In x seen -> ~ failed x) else seen_key (seen ++ [r]) a).
    { destruct acc as [b|].
      - subst a. rewrite compare_result_spec. destruct Hacc as [Hnf Hkey].
        destruct (r_cancelled b) eqn:Hb; cbn [negb andb].
        + (* b cancelled: all seen cancelled *)
          assert (Hall : forall x, In x seen -> r_cancelled x = true).
          { inversion Hkey as [pre z post -> F _|pre z post -> F _ _|pre z -> F]; subst; auto;
            try (destruct F; congruence); congruence. }
          destruct (failedb r) eqn:Hr; [split; [reflexivity|exact Hnf]|]. apply failedb_false in Hr.
          assert (Hnf' : forall x, In x (seen ++ [r]) -> ~ failed x).
          { intros x Hx. apply in_app_or in Hx as [Hx|[<-|[]]]; auto. }
          split; [exact Hnf'|].
          destruct (r_cancelled r) eqn:Hcr.
          * eapply key_all_cancelled; [reflexivity|]. intros x Hx. apply in_app_or in Hx as [Hx|[<-|[]]]; auto.
          * eapply key_last_uncancelled with (post := []); [reflexivity|exact Hcr|exact Hnf'|intros x []].
        + destruct (r_cancelled r) eqn:Hcr.
          * (* keep b *)
            assert (Hbf : ~ failed b).
            { apply Hnf. inversion Hkey as [pre z post -> F _|pre z post -> F _ _|pre z -> F]; subst; apply in_or_app; right; now left. }
            apply failedb_false in Hbf. rewrite Hbf.
            assert (Hnf' : forall x, In x (seen ++ [r]) -> ~ failed x).
            { intros x Hx. apply in_app_or in Hx as [Hx|[<-|[]]]; auto. intros [F _]. congruence. }
            split; [exact Hnf'|].
            inversion Hkey as [pre z post E F _|pre z post E F G I|pre z E F]; subst z.
            -- apply failedb_iff in F. congruence.
            -- eapply key_last_uncancelled with (pre := pre) (post := post ++ [r]);
                 [rewrite E, <- app_assoc; reflexivity|exact Hb|exact Hnf'|].
               intros x Hx. apply in_app_or in Hx as [Hx|[<-|[]]]; auto.
            -- rewrite F in Hb; [discriminate|]. rewrite E. apply in_or_app; right; now left.
          * destruct (failedb r) eqn:Hr; [split; [reflexivity|exact Hnf]|]. apply failedb_false in Hr.
            assert (Hnf' : forall x, In x (seen ++ [r]) -> ~ failed x).
            { intros x Hx. apply in_app_or in Hx as [Hx|[<-|[]]]; auto. }
            split; [exact Hnf'|].
            eapply key_last_uncancelled with (post := []); [reflexivity|exact Hcr|exact Hnf'|intros x []].
      - subst seen. subst a. cbn [compare_result]. destruct (failedb r) eqn:Hr; [split; [reflexivity|intros x []]|].
        apply failedb_false in Hr. split; [intros x [<-|[]]; exact Hr|].
        destruct (r_cancelled r) eqn:Hcr.
        * eapply key_all_cancelled with (pre := []); [reflexivity|]. intros x [<-|[]]; exact Hcr.
        * eapply key_last_uncancelled with (pre := []) (post := []); [reflexivity|exact Hcr| |intros x []].
          intros x [<-|[]]; exact Hr. }
    change (negb (r_cancelled a) && negb (r_exit a =? 0)) with (failedb a).
    destruct (failedb a) eqn:Hf.
    + destruct Ha as [Ea Hnf]. exists a. split; [reflexivity|].
      eapply key_first_failed with (pre := seen) (post := rs); [now rewrite Ea|now apply failedb_iff|exact Hnf].
    + destruct (IH (seen ++ [r]) (Some a) Ha ltac:(discriminate)) as (k & A & B).
      exists k. split; [exact A|]. now rewrite <- app_assoc in B.
Qed.

Lemma carries_no_other os rs : Forall2 carries os rs -> other_ex os = [].
Proof. induction 1 as [|o r os rs [->| ->] Hs IH]; cbn; auto. Qed.

Lemma last_carries os rs d d' : Forall2 carries os rs -> rs <> [] -> carries (List.last os d) (List.last rs d').
Proof.
  induction 1 as [|o r os rs Ho Hs IH]; intros Hne; [congruence|].
  destruct Hs as [|o2 r2 os rs Ho2 Hs]; [exact Ho|]. cbn [List.last] in *. apply IH. discriminate.
Qed.

Lemma convert_ok os rs cancelled d :
  Forall2 carries os rs -> rs <> [] ->
  exists k, key_of rs k /\ convert_result_list os cancelled
   = Ok {| r_exit := r_exit k; r_output := r_output (List.last rs d); r_error := r_error k;
            r_cancelled := cancelled; r_encoding := r_encoding (List.last rs d) |}.
Proof.
  intros H Hne. destruct (find_key_step os rs H [] None eq_refl (fun _ => Hne)) as (k & A & B).
  exists k. split; [exact B|]. unfold convert_result_list. rewrite (carries_no_other _ _ H), A.
  now rewrite (get_result_carries _ _ (last_carries os rs _ d H Hne)).
Qed.

(** The key result is unique up to what it reports when positions are fixed:
    two keys sit at the same place. *)
Lemma split_unique {A} (P : A -> Prop) (p1 p2 q1 q2 : list A) x y :
  p1 ++ x :: q1 = p2 ++ y :: q2 -> P x -> P y -> (forall z, In z p1 -> ~ P z) -> (forall z, In z p2 -> ~ P z) ->
  p1 = p2 /\ x = y.
Proof.
  revert p2. induction p1 as [|a p1 IH]; intros [|b p2] E Hx Hy N1 N2; cbn in E; injection E as E1 E2.
  - auto.
  - subst b. exfalso. apply (N2 x); [now left|exact Hx].
  - subst a. exfalso. apply (N1 y); [now left|exact Hy].
  - subst b. destruct (IH p2 E2 Hx Hy) as [-> ->]; auto; intros z Hz; [apply N1|apply N2]; now right.
Qed.
Lemma split_unique_last {A} (P : A -> Prop) (p1 p2 q1 q2 : list A) x y :
  p1 ++ x :: q1 = p2 ++ y :: q2 -> P x -> P y -> (forall z, In z q1 -> ~ P z) -> (forall z, In z q2 -> ~ P z) -> x = y.
Proof.
  revert p2. induction p1 as [|a p1 IH]; intros [|b p2] E Hx Hy N1 N2; cbn in E; injection E as E1 E2.
  - auto.
  - exfalso. apply (N1 y); [rewrite E2; apply in_or_app; right; now left|exact Hy].
  - exfalso. apply (N2 x); [rewrite <- E2; apply in_or_app; right; now left|exact Hx].
  - eauto.
Qed.
Lemma key_unique rs a b : key_of rs a -> key_of rs b -> a = b.
Proof.
  intros [p x q E F N|p x q E C N L|p x E C] [p' x' q' E' F' N'|p' x' q' E' C' N' L'|p' x' E' C'].
  - rewrite E in E'. now apply (split_unique failed p p' q q').
  - exfalso. apply (N' x); [rewrite E; apply in_or_app; right; now left|exact F].
  - exfalso. destruct F as [F _]. rewrite C' in F; [discriminate|]. rewrite E; apply in_or_app; right; now left.
  - exfalso. apply (N x'); [rewrite E'; apply in_or_app; right; now left|exact F'].
  - rewrite E in E'. apply (split_unique_last (fun r => r_cancelled r = false) p p' q q' x x' E' C C');
      intros z Hz; [rewrite (L z Hz)|rewrite (L' z Hz)]; discriminate.
  - exfalso. rewrite C' in C; [discriminate|]. rewrite E; apply in_or_app; right; now left.
  - exfalso. destruct F' as [F' _]. rewrite C in F'; [discriminate|]. rewrite E'; apply in_or_app; right; now left.
  - exfalso. rewrite C in C'; [discriminate|]. rewrite E'; apply in_or_app; right; now left.
  - rewrite E in E'. apply app_inj_tail in E'. tauto.
Qed.

(** Other exceptions. *)
Lemma other_errorb e : is_Exception e && negb (is_ResultError e) = true <-> other_error e.
Proof.
  unfold other_error. rewrite andb_true_iff, negb_true_iff. split; intros [A B]; (split; [exact A|]).
  - intros r ->. discriminate.
  - destruct e; try reflexivity. exfalso. now apply (B r).
Qed.
Lemma other_ex_first l pre e post :
  l = pre ++ OExn e :: post -> other_error e ->
  (forall e', In (OExn e') pre -> ~ other_error e') -> exists t, other_ex l = e :: t.
Proof.
  intros -> He. apply other_errorb in He. unfold other_ex. rewrite flat_map_app. cbn [flat_map app]. rewrite He. cbn [app].
  induction pre as [|o pre IH]; intros N; cbn [flat_map app]; [eexists; reflexivity|].
  destruct o as [r|e']; cbn [app]; [apply IH; intros; apply N; now right|].
  destruct (is_Exception e' && negb (is_ResultError e')) eqn:E.
  - apply other_errorb in E. exfalso. apply (N e'); [now left|exact E].
  - cbn [app]. apply IH; intros; apply N; now right.
Qed.

Lemma accepted_iff o z :
  container_in z (match o_exit_codes o with
                  | Some c => if container_truth c then c else CSet [0] | None => CSet [0] end) = true <-> accepted o z.
Proof.
  unfold accepted. destruct (o_exit_codes o) as [[[|x l]|lo hi]|]; cbn [container_truth].
  - cbn. rewrite orb_false_r. apply Z.eqb_eq.
  - unfold container_in. rewrite existsb_exists. split.
    + intros (y & Hy & E). apply Z.eqb_eq in E. now subst.
    + intros H. exists z. split; [exact H|apply Z.eqb_refl].
  - destruct (lo <? hi).
    + cbn. rewrite andb_true_iff, Z.leb_le, Z.ltb_lt. reflexivity.
    + cbn. rewrite orb_false_r. apply Z.eqb_eq.
  - cbn. rewrite orb_false_r. apply Z.eqb_eq.
Qed.

Lemma check_result_spec r o cancelled timed_out :
  (cancelled = true -> o_catch_cancelled o = false -> check_result r o cancelled timed_out = Err CancelledError)
  /\ (cancelled = true -> o_catch_cancelled o = true -> timed_out = false -> check_result r o cancelled timed_out = Err (ResultError r))
  /\ (cancelled = false \/ (o_catch_cancelled o = true /\ timed_out = true) ->
      (accepted o (r_exit r) -> check_result r o cancelled timed_out = Ok r)
      /\ (~ accepted o (r_exit r) -> check_result r o cancelled timed_out = Err (ResultError r))).
Proof.
  unfold check_result. repeat split.
  - intros -> ->. reflexivity.
  - intros -> -> ->. reflexivity.
  - intro Ha. apply accepted_iff in Ha. rewrite Ha. destruct H as [->|[-> ->]]; [reflexivity|]. cbn. now rewrite !andb_false_r.
  - intro Ha. destruct (container_in _ _) eqn:E; [apply accepted_iff in E; contradiction|].
    rewrite orb_true_r. destruct H as [->|[-> ->]]; [reflexivity|]. cbn. now rewrite andb_false_r.
Qed.
