From Verif Require Import CopyModel CopySpec CopyProofs Utf8Model Utf8Spec Utf8Proofs.
Open Scope Z_scope.

(** Decoding line by line is decoding the whole (UTF-8). *)
Lemma decode_lines ls : line_list ls ->
  match utf8_decode (List.concat ls) with
  | Some t => exists ts, map_opt utf8_decode ls = Some ts /\ List.concat ts = t
  | None => map_opt utf8_decode ls = None
  end.
Proof.
  induction 1 as [|l Hl Hn|l ls Hn H IH].
  - cbn. exists []. auto.
  - cbn [List.concat map_opt]. rewrite app_nil_r. destruct (utf8_decode l) as [t|]; [|reflexivity].
    exists [t]. split; [reflexivity|]. cbn. apply app_nil_r.
  - cbn [List.concat map_opt]. rewrite decode_nl. destruct (utf8_decode (l ++ [10])) as [t1|]; [|reflexivity].
    destruct (utf8_decode (List.concat ls)) as [t2|].
    + destruct IH as (ts & -> & <-). exists (t1 :: ts). auto.
    + now rewrite IH.
Qed.

Lemma map_opt_prefix {A B} (f : A -> option B) a b : forall ts, map_opt f (a ++ b) = Some ts ->
  exists ts1 ts2, map_opt f a = Some ts1 /\ map_opt f b = Some ts2 /\ ts = ts1 ++ ts2.
Proof.
  induction a as [|x a IH]; intros ts H; cbn in *.
  - exists [], ts. auto.
  - destruct (f x); [|discriminate H]. destruct (map_opt f (a ++ b)) eqn:E; [|discriminate H].
    destruct (IH l eq_refl) as (t1 & t2 & A1 & A2 & ->). rewrite A1. inversion H; subst. exists (b0 :: t1), t2. auto.
Qed.

Definition lines_short (d : bytes) : Prop := Forall (fun l => too_long l = false) (split_lines d).
Lemma short_all d : lines_short d <-> forallb short (split_lines d) = true.
Proof.
  unfold lines_short. rewrite forallb_forall, Forall_forall. unfold short. split; intros H x Hx; specialize (H x Hx); destruct (too_long x); auto.
Qed.
Lemma take_while_all {A} (p : A -> bool) l : forallb p l = true -> take_while p l = l.
Proof. induction l as [|x l IH]; cbn; [reflexivity|]. destruct (p x); [|discriminate]. intro H. now rewrite IH. Qed.

Lemma lines_exact r ds e : line_reads r ds e -> sr_end r = EndEof -> lines_short (sr_data r) ->
  ds = split_lines (sr_data r) /\ e = None.
Proof.
  intros H He Hs. apply line_reads_spec in H. destruct H as (_ & _ & H & _). destruct (H He) as (-> & K).
  apply short_all in Hs. rewrite take_while_all by exact Hs. split; [reflexivity|].
  destruct K as [(-> & _)|(m & _ & K)]; [reflexivity|congruence].
Qed.

Lemma text_lines r ds e t : line_reads r ds e -> sr_end r = EndEof -> lines_short (sr_data r) ->
  utf8_decode (sr_data r) = Some t ->
  exists ts, read_lines utf8_decode ds e = (ts, None) /\ List.concat ts = t
   /\ (forall sp, copy_logger sp utf8_decode ds e = (map (rstrip sp) ts, None)).
Proof.
  intros H He Hs Hd. destruct (lines_exact _ _ _ H He Hs) as (-> & ->).
  pose proof (decode_lines _ (split_lines_list (sr_data r))) as D. rewrite split_lines_concat, Hd in D.
  destruct D as (ts & D1 & D2). exists ts. split; [now apply read_lines_all|]. split; [exact D2|].
  intro sp. now apply copy_logger_all.
Qed.

(** Each decoded line ends with its only newline. *)
Lemma encode_cp_nl c b : encode_cp c = Some b -> In 10 b -> c = 10.
Proof.
  intros H Hi. destruct (encode_cp_bytes _ _ H) as [->|F].
  - destruct Hi as [Hi|[]]. exact Hi.
  - rewrite Forall_forall in F. specialize (F _ Hi). lia.
Qed.
Lemma encode_in_nl t : forall d, utf8_encode t = Some d -> (In 10 t <-> In 10 d).
Proof.
  induction t as [|c t IH]; intros d H; cbn in H; [inversion H; subst; tauto|].
  destruct (encode_cp c) as [b|] eqn:E; [|discriminate H]. destruct (utf8_encode t) as [d'|]; [|discriminate H].
  inversion H; subst. rewrite in_app_iff. cbn. rewrite (IH d' eq_refl). split; intros [K|K]; auto.
  - subst c. left. cbv in E. inversion E. left. reflexivity.
  - left. eapply encode_cp_nl; eauto.
Qed.
Lemma decoded_lines_list ls : line_list ls -> forall ts, map_opt utf8_decode ls = Some ts -> line_list ts.
Proof.
  induction 1 as [|l Hl Hn|l ls Hn H IH]; intros ts M; cbn in M.
  - inversion M. constructor.
  - destruct (utf8_decode l) as [t|] eqn:E; [|discriminate M]. inversion M; subst. apply decode_iff in E. apply ll_last.
    + intros ->. cbn in E. congruence.
    + rewrite (encode_in_nl _ _ E). exact Hn.
  - destruct (utf8_decode (l ++ [10])) as [t|] eqn:E; [|discriminate M]. destruct (map_opt utf8_decode ls) as [ts'|] eqn:E2; [|discriminate M].
    inversion M; subst. apply decode_iff in E.
    (* t is the decoding of l plus newline *)
    destruct t as [|c t] using rev_ind; [cbn in E; destruct l; discriminate E|]. clear IHt.
    rewrite utf8_encode_app in E. destruct (utf8_encode t) as [a|] eqn:Ea; [|discriminate E]. cbn [utf8_encode] in E.
    destruct (encode_cp c) as [b|] eqn:Eb; [|discriminate E]. rewrite app_nil_r in E. assert (E' : a ++ b = l ++ [10]) by congruence.
    assert (c = 10).
    { apply (encode_cp_nl _ _ Eb). destruct b as [|z b] using rev_ind; [apply encode_cp_nonempty in Eb; congruence|].
      rewrite app_assoc in E'. apply app_inj_tail in E'. destruct E' as (_ & ->). apply in_app_iff. right. left. reflexivity. }
    subst c. cbv in Eb. inversion Eb; subst b. apply app_inj_tail in E'. destruct E' as (-> & _).
    apply ll_cons; [rewrite (encode_in_nl _ _ Ea); exact Hn|]. now apply IH.
Qed.

Lemma text_lines_full r ds e t : line_reads r ds e -> sr_end r = EndEof -> lines_short (sr_data r) ->
  utf8_decode (sr_data r) = Some t ->
  exists ts, read_lines utf8_decode ds e = (ts, None) /\ line_list ts /\ List.concat ts = t
   /\ (forall sp, copy_logger sp utf8_decode ds e = (map (rstrip sp) ts, None)).
Proof.
  intros H He Hs Hd. destruct (lines_exact _ _ _ H He Hs) as (-> & ->).
  pose proof (decode_lines _ (split_lines_list (sr_data r))) as D. rewrite split_lines_concat, Hd in D.
  destruct D as (ts & D1 & D2). exists ts. split; [now apply read_lines_all|].
  split; [eapply decoded_lines_list; [apply split_lines_list|exact D1]|]. split; [exact D2|].
  intro sp. now apply copy_logger_all.
Qed.
