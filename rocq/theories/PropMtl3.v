(** MTL texts with other data and with statements left out: C59, C64. *)
From Verif Require Import MtlModel MtlSpec MtlRewriteSpec LexerProofs MtlTop MtlRewrite ExampleText MtlDemo.
Local Open Scope list_scope.

(** * C59 *)

Theorem C59_mtl_data : forall T, keeps_defaults T ->
  forall input f set input', text_says input f -> parse input = Ok set -> text_says input' (map_file T f) ->
  parse input' = Ok (map_set T set).
Proof. exact data_replaced. Qed.
Print Assumptions C59_mtl_data.

(** Red and blue are exchanged, exponents become 7, maps get other names. *)
Definition C59_mtl_T : transform :=
  mkTransform (fun n => n ++ lit "2") (fun f c => mkColor (color_b c) (color_g c) (color_r c))
    (fun f x => match f with Ni => num "7" | _ => x end) (fun i => i) (fun f n => lit "maps/" ++ n).

Example C59_mtl_example :
  let input := text "newmtl a|Ka 1 2 3|Ni 5|map_Ka x.png|newmtl b|decal y" in
  let input' := text "newmtl a2|Ka 3 2 1|Ni 7|map_Ka maps/x.png|newmtl b2|decal maps/y" in
  let f := [(lit "a", [SetColor Ka (mkColor (num "1") (num "2") (num "3")); SetNumber Ni (num "5"); SetMap MapKa (lit "x.png")]);
            (lit "b", [SetMap Decal (lit "y")])] in
  keeps_defaults C59_mtl_T /\ text_says input f /\ text_says input' (map_file C59_mtl_T f) /\
  exists set, parse input = Ok set /\ parse input' = Ok (map_set C59_mtl_T set).
Proof.
  cbv zeta. split; [repeat split; reflexivity|]. split; [mtl_says|]. split.
  - cbn [map_file map map_setting on_name on_color on_number on_illum on_map C59_mtl_T color_r color_g color_b]. mtl_says.
  - eexists. split; vm_compute; reflexivity.
Qed.

(** * C64 *)

(** Of two statements about the same thing the first can be left out, and put in
    again. *)
Theorem C64_overwritten : forall input input' set before n a s b s' c after, same_field s s' ->
  text_says input (before ++ (n, a ++ s :: b ++ s' :: c) :: after) ->
  text_says input' (before ++ (n, a ++ b ++ s' :: c) :: after) ->
  parse input = Ok set <-> parse input' = Ok set.
Proof. exact overwritten_removed. Qed.
Print Assumptions C64_overwritten.

Example C64_example :
  let input := text "newmtl m|bump a.png|Ka 1 2 3|Ns 7|Ka 0 0 1|map_Bump b.png|" in
  let input' := text "newmtl m|bump a.png|Ns 7|Ka 0 0 1|map_Bump b.png|" in
  let bump x := SetMap MapBump (lit x) in
  text_says input ([] ++ (lit "m", [bump "a.png"%string] ++ SetColor Ka (mkColor (num "1") (num "2") (num "3")) :: [SetNumber Ns (num "7")] ++
    SetColor Ka (mkColor (num "0") (num "0") (num "1")) :: [bump "b.png"%string]) :: []) /\
  text_says input' ([] ++ (lit "m", [bump "a.png"%string] ++ [SetNumber Ns (num "7")] ++
    SetColor Ka (mkColor (num "0") (num "0") (num "1")) :: [bump "b.png"%string]) :: []) /\
  exists set, parse input = Ok set /\ parse input' = Ok set.
Proof.
  cbv zeta. cbn [app]. split; [mtl_says|]. split; [mtl_says|]. eexists. split; vm_compute; reflexivity.
Qed.
