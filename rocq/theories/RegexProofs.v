From Verif Require Import PromptSpec.
Open Scope Z_scope.

Lemma special_not_alnum c : is_special c = true -> is_alnum c = false.
Proof.
  unfold is_special. intros H. apply existsb_exists in H as (x & I & E). apply Z.eqb_eq in E as <-.
  cbn in I. repeat (destruct I as [<-|I]; [reflexivity|]). destruct I.
Qed.
Lemma not_special c : is_special c = false -> (c =? 92) = false /\ (c =? 124) = false /\ is_meta c = false.
Proof.
  intros H. assert (G : forall x, In x special_chars -> (c =? x) = false).
  { intros x I. destruct (c =? x) eqn:E; [|reflexivity]. rewrite <- H. symmetry. apply existsb_exists. eauto. }
  split; [apply G; cbn; tauto|]. split; [apply G; cbn; tauto|].
  unfold is_meta. destruct (existsb (Z.eqb c) meta_chars) eqn:E; [|reflexivity]. apply existsb_exists in E as (x & I & E).
  rewrite <- E. apply G. cbn in I |- *. tauto.
Qed.
Lemma parse_escape s rest : re_parse (re_escape s ++ rest) = match re_parse rest with Some (b :: bs) => Some ((s ++ b) :: bs) | _ => None end.
Proof.
  assert (NN : forall q, re_parse q <> Some []).
  { clear. intros [|c q]; [discriminate|]. cbn [re_parse]. destruct (c =? 92).
    - destruct q as [|e q]; [discriminate|]. destruct (is_alnum e); [discriminate|]. destruct (re_parse q) as [[|]|]; discriminate.
    - destruct (c =? 124); [destruct (re_parse q); discriminate|]. destruct (is_meta c); [discriminate|]. destruct (re_parse q) as [[|]|]; discriminate. }
  induction s as [|c s IH].
  { cbn [re_escape flat_map app]. destruct (re_parse rest) as [l|] eqn:E; [|reflexivity]. destruct l as [|b bs]; [|reflexivity]. destruct (NN _ E). }
  cbn [re_escape flat_map]. fold (re_escape s). destruct (is_special c) eqn:SC.
  - rewrite <- app_assoc. cbn [app re_parse Z.eqb]. rewrite (special_not_alnum _ SC), IH. destruct (re_parse rest) as [[|b bs]|]; reflexivity.
  - destruct (not_special _ SC) as (A & B & C). rewrite <- app_assoc. cbn [app re_parse]. rewrite A, B, C, IH.
    destruct (re_parse rest) as [[|b bs]|]; reflexivity.
Qed.
Lemma parse_str s : re_parse (re_escape s) = Some [s].
Proof. rewrite <- (app_nil_r (re_escape s)), parse_escape. cbn. now rewrite app_nil_r. Qed.
Lemma parse_list l : l <> [] -> re_parse (join_bar (map re_escape l)) = Some l.
Proof.
  induction l as [|s l IH]; [congruence|]. intros _. destruct l as [|s' l]; [apply parse_str|].
  change (join_bar (map re_escape (s :: s' :: l))) with (re_escape s ++ 124 :: join_bar (map re_escape (s' :: l))).
  rewrite parse_escape. cbn [re_parse Z.eqb]. rewrite IH by discriminate. cbn [Pos.eqb]. now rewrite app_nil_r.
Qed.

Lemma prefix_iff s t : is_prefix s t = true <-> exists b, t = s ++ b.
Proof.
  revert t. induction s as [|a s IH]; intros t; cbn; [split; eauto|]. destruct t as [|b t].
  - split; [discriminate|]. intros (b & Q). discriminate.
  - rewrite andb_true_iff, Z.eqb_eq, IH. split.
    + intros (-> & b' & ->). eauto.
    + intros (b' & Q). injection Q as -> ->. eauto.
Qed.
Lemma occurs_0 s t : occurs_at s t 0 <-> exists b, t = s ++ b.
Proof. split; [intros ([|] & b & E & L); [eauto|discriminate]|intros (b & E); exists [], b; auto]. Qed.
Lemma occurs_S s x t n : occurs_at s (x :: t) (S n) <-> occurs_at s t n.
Proof.
  split.
  - intros ([|y a] & b & E & L); [discriminate|]. injection E as -> E. exists a, b. split; [exact E|]. cbn in L. lia.
  - intros (a & b & E & L). exists (x :: a), b. cbn. now rewrite E, L.
Qed.
Lemma match_at_some bs t s : match_at bs t = Some s -> exists l1 l2, bs = l1 ++ s :: l2 /\ occurs_at s t 0 /\ forall s', In s' l1 -> ~ occurs_at s' t 0.
Proof.
  induction bs as [|a bs IH]; cbn; [discriminate|]. destruct (is_prefix a t) eqn:E.
  - intros Q. injection Q as <-. exists [], bs. split; [reflexivity|]. split; [now apply occurs_0, prefix_iff|]. intros s' [].
  - intros H. destruct (IH H) as (l1 & l2 & -> & O & N). exists (a :: l1), l2. split; [reflexivity|]. split; [exact O|].
    intros s' [<-|I]; [|now apply N]. rewrite occurs_0, <- prefix_iff. congruence.
Qed.
Lemma match_at_none bs t s : match_at bs t = None -> In s bs -> ~ occurs_at s t 0.
Proof. intros H I. unfold match_at in H. rewrite occurs_0, <- prefix_iff. apply (find_none _ _ H) in I. congruence. Qed.

Lemma search_some bs t : forall pos a e, search_from bs pos t = Some (a, e) ->
  exists n s, a = (pos + n)%nat /\ e = (a + List.length s)%nat /\ leftmost_of bs t n s.
Proof.
  induction t as [|x t IH]; intros pos a e; cbn [search_from].
  - destruct (match_at bs []) as [s|] eqn:E; [|discriminate]. intros Q. injection Q as <- <-. destruct (match_at_some _ _ _ E) as (l1 & l2 & -> & O & N).
    exists 0%nat, s. split; [lia|]. split; [lia|]. split; [exact O|]. split; [intros; lia|]. eauto.
  - destruct (match_at bs (x :: t)) as [s|] eqn:E.
    + intros Q. injection Q as <- <-. destruct (match_at_some _ _ _ E) as (l1 & l2 & -> & O & N).
      exists 0%nat, s. split; [lia|]. split; [lia|]. split; [exact O|]. split; [intros; lia|]. eauto.
    + intros H. destruct (IH _ _ _ H) as (n & s & -> & -> & O & B & l1 & l2 & -> & N). exists (S n), s. split; [lia|]. split; [lia|].
      split; [now apply occurs_S|]. split.
      * intros s' [|k] I L; [now apply (match_at_none _ _ _ E)|]. rewrite occurs_S. apply B; [exact I|lia].
      * exists l1, l2. split; [reflexivity|]. intros s' I. rewrite occurs_S. now apply N.
Qed.
Lemma search_none bs t : forall pos, search_from bs pos t = None -> forall s n, In s bs -> ~ occurs_at s t n.
Proof.
  induction t as [|x t IH]; intros pos; cbn [search_from].
  - destruct (match_at bs []) eqn:E; [discriminate|]. intros _ s n I (a & b & Q & L). assert (a = []) by (destruct a; [reflexivity|discriminate]). subst a.
    apply (match_at_none _ _ _ E I). apply occurs_0. eauto.
  - destruct (match_at bs (x :: t)) eqn:E; [discriminate|]. intros H s [|n] I; [now apply (match_at_none _ _ _ E)|]. rewrite occurs_S. now apply (IH _ H).
Qed.
Lemma occurs_bound s t n : occurs_at s t n -> (n + List.length s <= List.length t)%nat.
Proof. intros (a & b & -> & <-). rewrite !app_length. lia. Qed.
Lemma search_sane bs : sane (search_from bs 0).
Proof. intros t a e H. destruct (search_some _ _ _ _ _ H) as (n & s & -> & -> & O & _). apply occurs_bound in O. lia. Qed.

Lemma compile_str s : exists p, compile_exact_str s = Some p /\ sane p
  /\ (forall t a e, p t = Some (a, e) -> e = (a + List.length s)%nat /\ first_at s t a) /\ (forall t n, p t = None -> ~ occurs_at s t n).
Proof.
  unfold compile_exact_str, re_compile. rewrite parse_str. eexists. split; [reflexivity|]. split; [apply search_sane|]. split.
  - intros t a e H. destruct (search_some _ _ _ _ _ H) as (n & s' & -> & -> & O & B & l1 & l2 & E & _).
    assert (s' = s) by (destruct l1 as [|? [|]]; [now injection E|discriminate|discriminate]). subst s'. cbn. split; [reflexivity|]. split; [exact O|]. intros k L. apply B; [now left|exact L].
  - intros t n H. apply (search_none _ _ _ H). now left.
Qed.
Lemma compile_list l : l <> [] -> exists p, compile_exact_list l = Some p /\ sane p
  /\ (forall t a e, p t = Some (a, e) -> exists s, e = (a + List.length s)%nat /\ leftmost_of l t a s) /\ (forall t s n, In s l -> p t = None -> ~ occurs_at s t n).
Proof.
  intros NE. unfold compile_exact_list, re_compile. rewrite parse_list by exact NE. eexists. split; [reflexivity|]. split; [apply search_sane|]. split.
  - intros t a e H. destruct (search_some _ _ _ _ _ H) as (n & s & -> & -> & O). eauto.
  - intros t s n I H. now apply (search_none _ _ _ H).
Qed.
