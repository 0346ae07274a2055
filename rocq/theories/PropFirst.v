(** C74: the first word of a text. *)
From Verif Require Import ObjModel TokenSpec ObjErrorSpec ObjTop FirstWord ExampleText LexerProofs GrammarProofs.
From Verif Require MtlTypes MtlModel MtlSpec.
Local Open Scope char_scope.
Local Open Scope list_scope.

(** * C74

    Blank lines and comments may come first.  If then a word follows that no
    statement starts with, this is the error, on the line of the word; nothing
    behind it matters. *)

Theorem C74_obj : forall dbg input n w rest, fits input -> tokenizes input (repeat nl n ++ w :: rest) ->
  w <> nl -> w <> lit "o" -> w <> lit "mtllib" -> ~ In w keywords ->
  parse dbg input = Err (mkParseError (S n) InvalidObjectStatement (msg_statement w)).
Proof. exact first_word. Qed.
Print Assumptions C74_obj.

Theorem C74_mtl : forall input n w rest, tokenizes input (repeat nl n ++ w :: rest) ->
  w <> nl -> w <> lit "newmtl" ->
  MtlModel.parse input = Err (mkParseError (S n) MtlTypes.ExpectedEndOfInput (MtlSpec.msg_not_end w)).
Proof. exact mtl_first_word. Qed.
Print Assumptions C74_mtl.

(** In particular a text that starts with another byte than a statement does. *)
Theorem C74_obj_byte : forall dbg c s, fits (c :: s) -> word_byte c -> ~ In c (lit "gsuvplfom") ->
  exists w s', s = w ++ s' /\ Forall word_byte w /\ starts_with (fun c => ~ word_byte c) s' /\
    parse dbg (c :: s) = Err (mkParseError 1 InvalidObjectStatement (msg_statement (c :: w))).
Proof. exact bad_start. Qed.
Print Assumptions C74_obj_byte.

Theorem C74_mtl_byte : forall c s, word_byte c -> c <> "n" ->
  exists w s', s = w ++ s' /\ Forall word_byte w /\ starts_with (fun c => ~ word_byte c) s' /\
    MtlModel.parse (c :: s) = Err (mkParseError 1 MtlTypes.ExpectedEndOfInput (MtlSpec.msg_not_end (c :: w))).
Proof. exact mtl_bad_start. Qed.
Print Assumptions C74_mtl_byte.

(** The byte order mark some editors put in front of a text in UTF-8. *)
Definition byte_order_mark : bytes := ["239"; "187"; "191"].

(** A text that is fine is not with the mark. *)
Theorem C74_byte_order_mark : forall dbg s, fits (byte_order_mark ++ s) ->
  (forall set, parse dbg (byte_order_mark ++ s) <> Ok set) /\
  (forall set, MtlModel.parse (byte_order_mark ++ s) <> Ok set).
Proof.
  intros dbg s Hf. assert (W : word_byte "239").
  { repeat split; intros H; repeat destruct H as [H|H]; discriminate. }
  split; intros set E.
  - destruct (C74_obj_byte dbg "239" (["187"; "191"] ++ s) Hf W) as (w & s' & _ & _ & _ & E').
    + cbn. intros H. repeat (destruct H as [H|H]; [discriminate|]). exact H.
    + discriminate (eq_trans (eq_sym E) E').
  - destruct (C74_mtl_byte "239" (["187"; "191"] ++ s) W) as (w & s' & _ & _ & _ & E'); [discriminate|].
    discriminate (eq_trans (eq_sym E) E').
Qed.
Print Assumptions C74_byte_order_mark.

(** The first two are texts after blank lines; the last two would be fine
    without the mark.  A line end of two bytes in front of the first statement
    is such a word. *)
Example C74_example :
  tokenizes (text "|# a file| |curv 1|v 1 2 3|") (repeat nl 3 ++ lit "curv" :: [lit "1"; nl; lit "v"; lit "1"; lit "2"; lit "3"; nl]) /\
  ~ In (lit "curv") keywords /\
  parse true (text "|# a file| |curv 1|v 1 2 3|") =
    Err (mkParseError 4 InvalidObjectStatement (lit "Unsupported or invalid object statement `curv`.")) /\
  MtlModel.parse (text "|# a file| |Kd 1 1 1|newmtl a|") =
    Err (mkParseError 4 MtlTypes.ExpectedEndOfInput (lit "Expected end of input but got `Kd`.")) /\
  parse true (CR :: text "|v 1 2 3|p 1|") = Err (mkParseError 1 InvalidObjectStatement (msg_statement [CR])) /\
  (exists set, parse true (text "v 1 2 3|p 1|") = Ok set) /\
  parse true (byte_order_mark ++ text "v 1 2 3|p 1|") =
    Err (mkParseError 1 InvalidObjectStatement (msg_statement (byte_order_mark ++ lit "v"))) /\
  (exists set, MtlModel.parse (text "newmtl a|Kd 1 1 1|") = Ok set) /\
  MtlModel.parse (byte_order_mark ++ text "newmtl a|Kd 1 1 1|") =
    Err (mkParseError 1 MtlTypes.ExpectedEndOfInput (MtlSpec.msg_not_end (byte_order_mark ++ lit "newmtl"))).
Proof.
  split; [apply tokenizes_iff; vm_compute; reflexivity|].
  split; [intros H; vm_compute in H; repeat (destruct H as [H|H]; [discriminate|]); exact H|].
  split; [vm_compute; reflexivity|]. split; [vm_compute; reflexivity|]. split; [vm_compute; reflexivity|].
  split; [eexists; vm_compute; reflexivity|]. split; [vm_compute; reflexivity|].
  split; [eexists; vm_compute; reflexivity|]. vm_compute; reflexivity.
Qed.
