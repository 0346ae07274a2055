(** C81: parsing on a platform with smaller words.

    NarrowModel.v has the parser of src/obj.rs where [usize] and [isize] have
    [bits] bits; [parse] is the parser of ObjModel.v, with 64.  A text fits into
    the memory of the platform if it has at most [isize::MAX] bytes. *)
From Verif Require Import ObjModel NarrowModel NarrowSpec NarrowProofs NarrowDebug ExampleText Demo.
From Verif Require MtlModel NarrowMtlModel NarrowMtl NarrowLexerModel NarrowLexer NarrowMoves.
Local Open Scope list_scope.

(** The two end the same way: with the same objects, the same panic, or an error in
    the same line.  The exceptions are a smoothing group whose number is too large
    for the platform, and overflows in debug builds. *)
Theorem C81_ending : forall bits dbg input, (8 <= bits <= 64)%Z -> (Z.of_nat (length input) <= largest_isize bits)%Z ->
  same_ending bits dbg (narrow_parse bits dbg input) (parse dbg input).
Proof. exact narrow_ending. Qed.
Print Assumptions C81_ending.

(** In release builds. *)
Theorem C81_release : forall bits input, (8 <= bits <= 64)%Z -> (Z.of_nat (length input) <= largest_isize bits)%Z ->
  (exists e, narrow_parse bits false input = Err e /\ smoothing_too_large bits e /\
     forall set, parse false input = Ok set -> too_large_group bits set) \/
  (exists set, narrow_parse bits false input = Ok set /\ parse false input = Ok set) \/
  (exists e e', narrow_parse bits false input = Err e /\ parse false input = Err e' /\ same_error e e') \/
  (exists x, narrow_parse bits false input = Panic x /\ parse false input = Panic x).
Proof. exact narrow_release. Qed.
Print Assumptions C81_release.

(** The objects that are read are those that are read with 64 bits, if all their
    smoothing groups are numbers of the platform. *)
Theorem C81_ok : forall bits input, (8 <= bits <= 64)%Z -> (Z.of_nat (length input) <= largest_isize bits)%Z ->
  forall set, narrow_parse bits false input = Ok set <-> parse false input = Ok set /\ ~ too_large_group bits set.
Proof. exact narrow_ok. Qed.
Print Assumptions C81_ok.

(** A debug build panics, or does the same as a release build. *)
Theorem C81_debug : forall bits input, (forall x, narrow_parse bits true input <> Panic x) ->
  narrow_parse bits true input = narrow_parse bits false input.
Proof. exact narrow_debug. Qed.
Print Assumptions C81_debug.

Theorem C81_debug_ok : forall bits input, (8 <= bits <= 64)%Z -> (Z.of_nat (length input) <= largest_isize bits)%Z ->
  forall set, narrow_parse bits true input = Ok set -> parse false input = Ok set /\ ~ too_large_group bits set.
Proof.
  intros bits input Hb Hl set E. apply (C81_ok bits input Hb Hl set). rewrite <- C81_debug; auto. intros x E'. congruence.
Qed.
Print Assumptions C81_debug_ok.

(** With 64 bits no smoothing group is too large. *)
Theorem C81_wide : forall e, ~ smoothing_too_large 64 e.
Proof. exact no_smoothing_64. Qed.
Print Assumptions C81_wide.

(** The platforms do differ: in what is an error, *)
Definition big_group : bytes := text "v 1 2 3|s 4294967296|p 1|".

Theorem C81_same_refuted : ~ (forall input, (Z.of_nat (length input) <= largest_isize 32)%Z ->
  narrow_parse 32 false input = parse false input).
Proof.
  intro H. specialize (H big_group). assert (L : (Z.of_nat (length big_group) <= largest_isize 32)%Z) by (vm_compute; discriminate).
  specialize (H L). vm_compute in H. discriminate.
Qed.
Print Assumptions C81_same_refuted.

Example C81_smoothing :
  (exists e, narrow_parse 32 false big_group = Err e /\ smoothing_too_large 32 e /\ err_line_number e = 2) /\
  exists set, parse false big_group = Ok set /\ too_large_group 32 set.
Proof.
  split.
  2:{ eexists. split; [vm_compute; reflexivity|]. eexists. exists 4294967296%N. split; [left; reflexivity|].
      split; [left; reflexivity|vm_compute; reflexivity]. }
  eexists. split; [vm_compute; reflexivity|]. split; [|reflexivity].
  split; [reflexivity|]. exists (lit "4294967296"), 4294967296%N. split; [vm_compute; reflexivity|]. split; vm_compute; reflexivity.
Qed.

(** in which error it is, *)
Example C81_index : let input := text "v 1 2 3|p 99999999999|" in
  exists e e', narrow_parse 32 false input = Err e /\ parse false input = Err e' /\ same_error e e' /\
    err_kind e = ExpectedInteger /\ err_kind e' = VTNIndexOutOfRange.
Proof.
  cbv zeta. eexists. eexists. split; [vm_compute; reflexivity|]. split; [vm_compute; reflexivity|].
  split; [|split; reflexivity]. split; [reflexivity|]. right. cbn. auto.
Qed.

(** and in what overflows in a debug build, either way around. *)
Example C81_overflow : let input := text "v 1 2 3|p -2147483648|" in
  narrow_parse 32 true input = Panic PanicOverflow /\ exists e, parse true input = Err e.
Proof. cbv zeta. split; [vm_compute; reflexivity|]. eexists. vm_compute. reflexivity. Qed.

Example C81_overflow_wide : let input := text "v 1 2 3|p -9223372036854775808|" in
  parse true input = Panic PanicOverflow /\ exists e, narrow_parse 32 true input = Err e.
Proof. cbv zeta. split; [vm_compute; reflexivity|]. eexists. vm_compute. reflexivity. Qed.

(** A file with two objects, and 32 or 16 bits. *)
Example C81_example : (Z.of_nat (length demo) <= largest_isize 16)%Z /\
  exists set, narrow_parse 32 true demo = Ok set /\ narrow_parse 16 true demo = Ok set /\ parse true demo = Ok set /\ length (objects set) = 2.
Proof.
  split; [vm_compute; discriminate|]. eexists. split; [vm_compute; reflexivity|]. split; [vm_compute; reflexivity|].
  split; [vm_compute; reflexivity|reflexivity].
Qed.

(** Negative indices are out of range on both. *)
Example C81_negative : let input := text "v 1 2 3|p -1|" in
  exists e, narrow_parse 32 false input = Err e /\ parse false input = Err e /\ err_kind e = VTNIndexOutOfRange.
Proof. cbv zeta. eexists. split; [vm_compute; reflexivity|]. split; [vm_compute; reflexivity|reflexivity]. Qed.

(** * Material files *)

(** The result is the same, except that an illumination model whose number is too large
    for the platform is another error in the same line. *)
Theorem C81_mtl : forall bits input, (8 <= bits)%Z ->
  NarrowMtlModel.narrow_parse_mtl bits input = MtlModel.parse input \/
  exists e e', NarrowMtlModel.narrow_parse_mtl bits input = Err e /\ MtlModel.parse input = Err e' /\
    illumination_too_large bits e e'.
Proof. exact NarrowMtl.narrow_mtl. Qed.
Print Assumptions C81_mtl.

Theorem C81_mtl_ok : forall bits input set, (8 <= bits)%Z ->
  NarrowMtlModel.narrow_parse_mtl bits input = Ok set <-> MtlModel.parse input = Ok set.
Proof. exact NarrowMtl.narrow_mtl_ok. Qed.
Print Assumptions C81_mtl_ok.

(** On the platform no error names a number that is too large for it. *)
Theorem C81_mtl_error : forall bits input e,
  NarrowMtlModel.narrow_parse_mtl bits input = Err e -> ~ names_too_large bits e.
Proof. exact NarrowMtl.narrow_mtl_error. Qed.
Print Assumptions C81_mtl_error.

Example C81_mtl_example : let input := text "newmtl a|illum 1|Kd 1 0 0|" in
  exists set, NarrowMtlModel.narrow_parse_mtl 32 input = Ok set /\ MtlModel.parse input = Ok set.
Proof. cbv zeta. eexists. split; vm_compute; reflexivity. Qed.

Example C81_mtl_large : let input := text "newmtl a|illum 4294967296|" in
  exists e e', NarrowMtlModel.narrow_parse_mtl 32 input = Err e /\ MtlModel.parse input = Err e' /\
    illumination_too_large 32 e e' /\ err_line_number e = 2 /\ names_too_large 32 e'.
Proof.
  cbv zeta. eexists. eexists. split; [vm_compute; reflexivity|]. split; [vm_compute; reflexivity|].
  split; [|split; [reflexivity|exists 4294967296%N; repeat split; vm_compute; reflexivity]].
  split; [reflexivity|]. exists (lit "4294967296"), 4294967296%N. split; [vm_compute; reflexivity|].
  repeat split; vm_compute; reflexivity.
Qed.

(** * The lexer *)

(** The positions and line numbers do not overflow: reading a token, at any point of
    the text, is reading it with the unbounded counters of Lexer.v. *)
Theorem C81_calls : forall K bits dbg input p, (8 <= bits <= 64)%Z -> (Z.of_nat (length input) <= largest_isize bits)%Z ->
  reached input p ->
  (forall t q, NarrowLexerModel.narrow_peek bits dbg p = Some (t, q) <-> peek (K := K) p = (Ok t, q)) /\
  (forall t q, NarrowLexerModel.narrow_next bits dbg p = Some (t, q) <-> next (K := K) p = (Ok t, q)).
Proof. intros K bits dbg input p Hb. exact (NarrowLexer.narrow_calls bits Hb K dbg input p). Qed.
Print Assumptions C81_calls.

(** The parsers only ever are in such states, also on the platform. *)
Theorem C81_obj_reached : forall bits dbg input,
  reached input (snd (narrow_parse_objset bits dbg (fuel_for input) (parser_new input))).
Proof. exact NarrowMoves.narrow_obj_reached. Qed.
Print Assumptions C81_obj_reached.

Theorem C81_mtl_reached : forall bits input,
  reached input (snd (NarrowMtlModel.narrow_parse_mtlset bits (MtlModel.fuel_for input) (parser_new input))).
Proof. exact NarrowMoves.narrow_mtl_reached. Qed.
Print Assumptions C81_mtl_reached.

Example C81_calls_example : let input := text "a|b" in
  let p := snd (next (K := Empty_set) (snd (next (K := Empty_set) (parser_new input)))) in
  (Z.of_nat (length input) <= largest_isize 8)%Z /\ reached input p /\ line_number p = 2 /\
  exists q, NarrowLexerModel.narrow_next 8 true p = Some (Some (lit "b"), q).
Proof.
  cbv zeta. split; [vm_compute; discriminate|]. split; [repeat constructor|]. split; [reflexivity|].
  eexists. vm_compute. reflexivity.
Qed.

(** A text too long for the platform: a token of 256 bytes, and 8 bits. *)
Example C81_calls_overflow : let p := parser_new (repeat "a"%char 256) in
  NarrowLexerModel.narrow_next 8 true p = None /\
  (exists q, NarrowLexerModel.narrow_next 8 false p = Some (None, q)) /\
  fst (next (K := Empty_set) p) = Ok (Some (repeat "a"%char 256)).
Proof. cbv zeta. split; [vm_compute; reflexivity|]. split; [eexists; vm_compute; reflexivity|vm_compute; reflexivity]. Qed.
