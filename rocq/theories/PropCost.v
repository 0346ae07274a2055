(** C68: a parser asks its lexer for tokens linearly often in the size of the text.

    CountSpec.v has the counting lexer, LogSpec.v one that keeps a record of the
    tokens it has answered. *)
From Verif Require Import ObjModel TokenSpec CountSpec LogSpec Calls Logs ExampleText.
From Verif Require MtlModel.
Local Open Scope list_scope.

(** The parser over the counting lexer gives the answer of [parse].  Until then
    it has asked for a token at most eight times for every token of the text and
    nine times more, and no byte of the text has been read twice. *)
Theorem C68_obj : forall dbg input ts, tokenizes input ts ->
  let run := parse_objset dbg (fuel_for input) (counted_new input) in
  fst run = parse dbg input /\ calls (snd run) <= 8 * length ts + 9 /\ bytes_read (snd run) <= length input.
Proof. exact obj_calls. Qed.
Print Assumptions C68_obj.

Theorem C68_mtl : forall input ts, tokenizes input ts ->
  let run := MtlModel.parse_mtlset (MtlModel.fuel_for input) (counted_new input) in
  fst run = MtlModel.parse input /\ calls (snd run) <= 8 * length ts + 4 /\ bytes_read (snd run) <= length input.
Proof. exact mtl_calls. Qed.
Print Assumptions C68_mtl.

(** Eleven tokens and 28 calls; the parser looks at some tokens three times. *)
Example C68_obj_example :
  let input := text "v 1 2 3 # the only one|usemtl m|p 1|" in
  let run := parse_objset true (fuel_for input) (counted_new input) in
  tokenizes input (map lit ["v"; "1"; "2"; "3"]%string ++ [nl] ++ map lit ["usemtl"; "m"]%string ++ [nl] ++ map lit ["p"; "1"]%string ++ [nl]) /\
  (exists set, fst run = Ok set) /\ calls (snd run) = 28 /\ bytes_read (snd run) = length input.
Proof.
  cbv zeta. split; [apply LexerProofs.tokenizes_iff; vm_compute; reflexivity|].
  split; [eexists; vm_compute; reflexivity|]. split; vm_compute; reflexivity.
Qed.

Example C68_mtl_example :
  let input := text "newmtl a|Ka 1 0 0|map_d x|" in
  let run := MtlModel.parse_mtlset (MtlModel.fuel_for input) (counted_new input) in
  tokenizes input (map lit ["newmtl"; "a"]%string ++ [nl] ++ map lit ["Ka"; "1"; "0"; "0"]%string ++ [nl] ++ map lit ["map_d"; "x"]%string ++ [nl]) /\
  (exists set, fst run = Ok set) /\ calls (snd run) = 25 /\ bytes_read (snd run) = length input.
Proof.
  cbv zeta. split; [apply LexerProofs.tokenizes_iff; vm_compute; reflexivity|].
  split; [eexists; vm_compute; reflexivity|]. split; vm_compute; reflexivity.
Qed.

(** [placed 0 input ps]: every text has its tokens in one place each, and these
    are the tokens of [tokenizes]. *)
Theorem C68_places : forall input, exists ps, placed 0 input ps /\ tokenizes input (map fst ps) /\
  forall ps', placed 0 input ps' -> ps' = ps.
Proof. exact places_of. Qed.
Print Assumptions C68_places.

(** The tokens are answered in the order of the text, and no token is asked for
    more than eight times: not only on average.  Whenever a token is answered the
    lexer has gone over the text up to the end of this token, and not further. *)
Theorem C68_each_obj : forall dbg input ps, placed 0 input ps ->
  let run := parse_objset dbg (fuel_for input) (logged_new input) in
  fst run = parse dbg input /\ repeated 8 ps (answers (snd run)).
Proof. exact obj_answers. Qed.
Print Assumptions C68_each_obj.

Theorem C68_each_mtl : forall input ps, placed 0 input ps ->
  let run := MtlModel.parse_mtlset (MtlModel.fuel_for input) (logged_new input) in
  fst run = MtlModel.parse input /\ repeated 4 ps (answers (snd run)).
Proof. exact mtl_answers. Qed.
Print Assumptions C68_each_mtl.

(** So a long token costs no more than its share: all the answers together have
    at most eight times (four times) the bytes of the text. *)
Theorem C68_volume_obj : forall dbg input,
  volume (map fst (answers (snd (parse_objset dbg (fuel_for input) (logged_new input))))) <= 8 * length input.
Proof. exact obj_volume. Qed.
Print Assumptions C68_volume_obj.

Theorem C68_volume_mtl : forall input,
  volume (map fst (answers (snd (MtlModel.parse_mtlset (MtlModel.fuel_for input) (logged_new input))))) <= 4 * length input.
Proof. exact mtl_volume. Qed.
Print Assumptions C68_volume_mtl.

(** Eight times and four times do happen: the [p] of a text that starts with it,
    and the tag of a texture map. *)
Example C68_each_obj_example :
  let input := text "# x|p 1|" in
  placed 0 input [(nl, 4); (lit "p", 5); (lit "1", 7); (nl, 8)] /\
  answers (snd (parse_objset true (fuel_for input) (logged_new input))) = repeat (nl, 4) 2 ++ repeat (lit "p", 5) 8 ++ [(lit "1", 7)].
Proof.
  cbv zeta. split; [apply placed_by; vm_compute; reflexivity|]. vm_compute; reflexivity.
Qed.

Example C68_each_mtl_example :
  let input := text "newmtl a|map_d x" in
  placed 0 input [(lit "newmtl", 6); (lit "a", 8); (nl, 9); (lit "map_d", 14); (lit "x", 16)] /\
  answers (snd (MtlModel.parse_mtlset (MtlModel.fuel_for input) (logged_new input))) =
    repeat (lit "newmtl", 6) 3 ++ [(lit "a", 8); (nl, 9); (nl, 9)] ++ repeat (lit "map_d", 14) 4 ++ [(lit "x", 16)].
Proof.
  cbv zeta. split; [apply placed_by; vm_compute; reflexivity|]. vm_compute; reflexivity.
Qed.
