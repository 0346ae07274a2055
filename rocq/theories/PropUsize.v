(** C73: the counters of the parsers do not overflow.

    UsizeModel.v has the lexer and the parser with counters that are machine
    words: an addition that overflows panics in a debug build and wraps in a
    release build. *)
From Verif Require Import ObjModel ObjTop UsizeModel UsizeProofs ExampleText Demo.
From Verif Require MtlModel.
Local Open Scope list_scope.

(** With the counters of src/obj.rs as machine words the result is the same. *)
Theorem C73_parse : forall dbg input, fits input -> word_parse dbg input = parse dbg input.
Proof. exact word_parse_same. Qed.
Print Assumptions C73_parse.

(** Whatever was read before, the next [peek] or [next] of a parser is the same
    with the counters of src/lexer.rs and the line number as machine words.
    ([None]: a panic.) *)
Theorem C73_calls : forall K dbg input p, fits input -> reached input p ->
  (forall t q, word_peek dbg p = Some (t, q) <-> peek (K := K) p = (Ok t, q)) /\
  (forall t q, word_next dbg p = Some (t, q) <-> next (K := K) p = (Ok t, q)).
Proof. exact word_calls_same. Qed.
Print Assumptions C73_calls.

(** A parser only ever is in such states. *)
Theorem C73_obj_reached : forall dbg input, fits input ->
  reached input (snd (parse_objset dbg (fuel_for input) (parser_new input))).
Proof. exact (fun dbg input H => proj2 (word_parse_run dbg input H)). Qed.
Print Assumptions C73_obj_reached.

Theorem C73_mtl_reached : forall input,
  reached input (snd (MtlModel.parse_mtlset (MtlModel.fuel_for input) (parser_new input))).
Proof. exact mtl_reached. Qed.
Print Assumptions C73_mtl_reached.

(** The machine words do overflow. *)
Example C73_overflow : word_add true (N.to_nat usize_max) 1 = None /\ word_add false (N.to_nat usize_max) 1 = Some 0.
Proof. split; [exact (word_add_max true)|exact (word_add_max false)]. Qed.

Example C73_example : fits demo /\ exists set, word_parse true demo = Ok set /\ List.length (objects set) = 2.
Proof. split; [vm_compute; discriminate|]. eexists. split; [vm_compute; reflexivity|reflexivity]. Qed.

Example C73_error : let input := text "v 1 2 3|p 2|" in
  fits input /\ exists e, word_parse true input = Err e /\ err_line_number e = 2 /\ err_kind e = VTNIndexOutOfRange.
Proof. cbv zeta. split; [vm_compute; discriminate|]. eexists. split; [vm_compute; reflexivity|split; reflexivity]. Qed.

(** The lexer after two tokens. *)
Example C73_calls_example : let input := text "a|b" in
  let p := snd (next (K := Empty_set) (snd (next (K := Empty_set) (parser_new input)))) in
  fits input /\ reached input p /\ line_number p = 2 /\ exists q, word_next true p = Some (Some (lit "b"), q).
Proof.
  cbv zeta. split; [vm_compute; discriminate|]. split; [repeat constructor|]. split; [reflexivity|].
  eexists. vm_compute. reflexivity.
Qed.
