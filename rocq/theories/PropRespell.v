(** C61: the notation of numbers. *)
From Verif Require Import ObjModel RespellSpec ObjTop Respell LexerProofs ExampleText.
From Verif Require MtlModel MtlRespellSpec MtlRespell.
Local Open Scope list_scope.

(** * C61 *)

(** Two texts that are the same line by line, up to the notation of the numbers
    of statements: the same result, panic, or kind and line of error. *)
Theorem C61_obj : forall dbg input input' ts ts', fits input -> fits input' -> tokenizes input ts -> tokenizes input' ts' ->
  respelled ts ts' -> same_outcome (parse dbg input) (parse dbg input').
Proof. exact obj_respelled. Qed.
Print Assumptions C61_obj.

Theorem C61_mtl : forall input input' ts ts', tokenizes input ts -> tokenizes input' ts' ->
  MtlRespellSpec.respelled ts ts' -> same_outcome (MtlModel.parse input) (MtlModel.parse input').
Proof. exact MtlRespell.mtl_respelled. Qed.
Print Assumptions C61_mtl.

(** An example for each kind of line. *)
Definition one : bytes := text "v 0.5 10 -0|v 1 2 3 4|vt 0|vn 0 1 0|g 1.0|s 3|p 1|l 1 2|f 1/1/ 2/1 1/1||".
Definition two : bytes := text "v 5e-1 +1.0E1 -0.000|v 01 2. 300e-2 .4e1|vt 0.0e5|vn 0 1 0e9|g 1.0|s +03|p 0001|l 01 +2|f +1/1/ 2/+1 001/1||".

Definition words (s : string) : list bytes := lex (lit s).

Ltac eval_words := repeat match goal with |- context [words ?s] => let x := eval vm_compute in (words s) in change (words s) with x end.
Ltac number := eexists; split; vm_compute; reflexivity.
Ltac numbers := repeat constructor; number.
Ltac ref ps ps' := exists ps, ps'; split; [apply ObjAccept.parts_split; reflexivity|split; [apply ObjAccept.parts_split; reflexivity|]];
  repeat (apply Forall2_cons; [first [left; split; reflexivity | right; number]|]); apply Forall2_nil.

Example C61_obj_example : respelled (lex one) (lex two) /\
  exists set, parse true one = Ok set /\ parse true two = Ok set.
Proof.
  split; [|eexists; split; vm_compute; reflexivity].
  replace (lex one) with (words "v 0.5 10 -0" ++ nl :: words "v 1 2 3 4" ++ nl :: words "vt 0" ++ nl :: words "vn 0 1 0" ++ nl ::
    words "g 1.0" ++ nl :: words "s 3" ++ nl :: words "p 1" ++ nl :: words "l 1 2" ++ nl :: words "f 1/1/ 2/1 1/1" ++ nl :: [] ++ nl :: [])
    by (vm_compute; reflexivity).
  replace (lex two) with (words "v 5e-1 +1.0E1 -0.000" ++ nl :: words "v 01 2. 300e-2 .4e1" ++ nl :: words "vt 0.0e5" ++ nl :: words "vn 0 1 0e9" ++ nl ::
    words "g 1.0" ++ nl :: words "s +03" ++ nl :: words "p 0001" ++ nl :: words "l 01 +2" ++ nl :: words "f +1/1/ 2/+1 001/1" ++ nl :: [] ++ nl :: [])
    by (vm_compute; reflexivity).
  repeat (apply respelled_more); [..|apply respelled_last].
  - eval_words. apply line_v; [cbn; lia|numbers].
  - eval_words. apply line_v; [cbn; lia|numbers].
  - eval_words. apply line_vt; [cbn; lia|numbers].
  - eval_words. apply line_vn; [reflexivity|numbers].
  - eval_words. apply line_same. intros H. vm_compute in H. intuition discriminate.
  - eval_words. apply line_s. number.
  - eval_words. apply line_p. numbers.
  - eval_words. apply line_l. constructor; [ref [lit "1"] [lit "01"]|constructor; [ref [lit "2"] [lit "+2"]|constructor]].
  - eval_words. apply line_f. constructor; [ref [lit "1"; lit "1"; []] [lit "+1"; lit "1"; []]|].
    constructor; [ref [lit "2"; lit "1"] [lit "2"; lit "+1"]|].
    constructor; [ref [lit "1"; lit "1"] [lit "001"; lit "1"]|constructor].
  - eval_words. apply line_same. intros [].
  - eval_words. apply line_same. intros [].
Qed.

Example C61_obj_error :
  parse false (text "v 0.5 10 -0|p 1|p 1 2") = Err (mkParseError 3 VTNIndexOutOfRange (msg_range 0 1 1)) /\
  parse false (text "v 5e-1 +1.0E1 -0.000|p +0001|p 1 02") = Err (mkParseError 3 VTNIndexOutOfRange (msg_range 0 1 1)).
Proof. vm_compute. auto. Qed.

Example C61_mtl_example :
  MtlRespellSpec.respelled (words "newmtl 1" ++ nl :: words "Kd 1 0.5 0" ++ nl :: words "illum 1" ++ nl :: words "Ns 10")
    (words "newmtl 1" ++ nl :: words "Kd 1.0 5e-1 0e7" ++ nl :: words "illum +001" ++ nl :: words "Ns 1e1") /\
  exists set, MtlModel.parse (text "newmtl 1|Kd 1 0.5 0|illum 1|Ns 10") = Ok set /\
              MtlModel.parse (text "newmtl 1|Kd 1.0 5e-1 0e7|illum +001|Ns 1e1") = Ok set.
Proof.
  split; [|eexists; split; vm_compute; reflexivity].
  repeat (apply MtlRespellSpec.respelled_more); [..|apply MtlRespellSpec.respelled_last].
  - eval_words. apply MtlRespellSpec.line_same. intros H. vm_compute in H. intuition discriminate.
  - eval_words. apply (MtlRespellSpec.line_color MtlSpec.Kd); [reflexivity|numbers].
  - eval_words. apply MtlRespellSpec.line_illum. number.
  - eval_words. apply (MtlRespellSpec.line_number MtlSpec.Ns). number.
Qed.

(** The names of groups are not numbers. *)
Example C61_names : parse false (text "v 0 0 0|g 1|p 1") <> parse false (text "v 0 0 0|g 1.0|p 1").
Proof. vm_compute. discriminate. Qed.
