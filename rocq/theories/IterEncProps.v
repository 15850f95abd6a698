(** C97, C98 for the encodings of EncodingModel: the lines that an iteration
    gives are the lines of the whole output, decoded in one piece. *)
From Verif Require Import Base CommandModel CopyModel CopySpec CopyProofs EncodingModel EncodingSpec EncodingProofs EncodingProofs2 EncodingProps.
From Verif Require AsyncModel RunnerModel RunnerSpec IterModel IterProps PipeRunnerModel PipeIterModel PipeIterProps.
Open Scope Z_scope.

(** util.py 51-56, with its arguments in the order of the iteration models *)
Definition decodes (encoding : text) (d : bytes) : option text := decode_bytes d encoding.
(** [ls] are the lines of the text [t]; a line is also given (as "") when none
    of its bytes is a valid character and the error handler ignores these. *)
Definition lines_of (t : text) (ls : list text) : Prop := List.concat ls = t /\ drop_empty ls = split_lines t.

Lemma whole_text encoding k e d ls : parse_encoding encoding = Some (k, e) -> k <> Utf16le -> is_bytes d ->
  Forall2 (fun l t => decodes encoding l = Some t) (split_lines d) ls -> exists t, decode_bytes d encoding = Some t /\ lines_of t ls.
Proof.
  unfold decodes, decode_bytes. intros P K B F. rewrite P in F |- *. apply IterProps.forall_decoded in F. apply read_lines_all with (e := None) in F.
  pose proof (lines_decode k e d None K B) as L. destruct (decode k e d) as [t|].
  - destruct L as (ts & R & C & D & _). rewrite F in R. injection R as <-. exists t. split; [reflexivity|split; assumption].
  - exfalso. destruct L as (l1 & l & l2 & E & N & _ & ts & R & _). rewrite F in R. discriminate.
Qed.

(** Missing: the task was cancelled or timed out (C97 in full is refuted), and
    utf-16-le, whose lines do not end where its bytes 10 are (C125). *)
Theorem c97_text_partial : forall k e (o : opts) piped_stdin use_pty ob eb enc sr ls rb w',
  parse_encoding (o_encoding o) = Some (k, e) -> k <> Utf16le -> is_bytes (sr_data sr) -> IterProps.plain_end sr ->
  IterModel.iterate decodes o false piped_stdin use_pty ob eb enc (Some sr) ls rb (Ok tt) w' ->
  RunnerSpec.marks (RunnerSpec.events w') = 0%nat ->
  exists t, decode_bytes (sr_data sr) (o_encoding o) = Some t /\ lines_of t ls.
Proof.
  intros k e o ps up ob eb enc sr ls rb w' P K B PE H M. destruct (IterProps.c97_complete_partial _ _ _ _ _ _ _ _ _ _ _ PE H M) as (_ & F & _).
  eapply whole_text; eauto.
Qed.
Print Assumptions c97_text_partial.
(** latin-1: "h", the byte 233, newline, "b" *)
Example c97_text_example : exists w',
  parse_encoding (o_encoding IterProps.latin1_opts) = Some (Latin1, Strict) /\ is_bytes (sr_data IterProps.latin1_reader)
  /\ IterProps.plain_end IterProps.latin1_reader
  /\ IterModel.iterate decodes IterProps.latin1_opts false false false None None [] (Some IterProps.latin1_reader) [[104; 233; 10]; [98]] (Some (Ok tt)) (Ok tt) w'
  /\ RunnerSpec.marks (RunnerSpec.events w') = 0%nat.
Proof.
  destruct (IterProps.ex_iter_latin1 decodes) as (w' & H & M); [reflexivity..|]. exists w'. split; [reflexivity|].
  split; [repeat constructor; discriminate|]. split; [now left|]. auto.
Qed.

Theorem c98_text_partial : forall k e (o : opts) n sr ls rb w', (n >= 2)%nat ->
  parse_encoding (o_encoding o) = Some (k, e) -> k <> Utf16le -> is_bytes (sr_data sr) -> IterProps.plain_end sr ->
  PipeIterModel.piterate decodes o n (Ok tt) (Some sr) ls rb (Ok tt) w' -> ~ PipeIterProps.cancelled_in w' ->
  exists t, decode_bytes (sr_data sr) (o_encoding o) = Some t /\ lines_of t ls.
Proof.
  intros k e o n sr ls rb w' N P K B PE H M. destruct (PipeIterProps.c98_complete_partial _ _ _ _ _ _ _ N PE H M) as (_ & F & _).
  eapply whole_text; eauto.
Qed.
Print Assumptions c98_text_partial.
Example c98_text_example : exists w',
  parse_encoding (o_encoding PipeIterProps.ex_popts) = Some (Utf8, Strict) /\ is_bytes (sr_data PipeIterProps.ex_reader)
  /\ IterProps.plain_end PipeIterProps.ex_reader
  /\ PipeIterModel.piterate decodes PipeIterProps.ex_popts 3 (Ok tt) (Some PipeIterProps.ex_reader) [[104; 233; 10]; [98]] (Some (Ok tt)) (Ok tt) w'
  /\ ~ PipeIterProps.cancelled_in w'.
Proof.
  destruct (PipeIterProps.ex_normal3_in decodes PipeIterProps.ex_popts) as (w' & H & M & _); [reflexivity..|]. exists w'. split; [reflexivity|].
  split; [repeat constructor; discriminate|]. split; [now left|]. auto.
Qed.
