(** Properties of [mtl::parse]: C09, C24, C31, C32, C34, C39, C40, C42, C43.

    [text_says input f] is the reading of a text (MtlSpec.v). *)
From Verif Require Import MtlModel MtlSpec MtlTop MtlFacts LexerProofs ExampleText MtlDemo.
Local Open Scope list_scope.

(** * C31 *)

Theorem C31_parse_ok_iff : forall input set,
  parse input = Ok set <-> exists ts f, tokenizes input ts /\ says_file f ts /\ set = file_means f.
Proof. exact parse_ok_iff. Qed.
Print Assumptions C31_parse_ok_iff.

(** A text has one reading. *)
Theorem C31_one_reading : forall input f f', text_says input f -> text_says input f' -> f = f'.
Proof. exact text_one. Qed.
Print Assumptions C31_one_reading.

(** One material for each [newmtl], in order and with its name. *)
Theorem C31_materials_in_order : forall input set f, parse input = Ok set -> text_says input f ->
  map name (materials set) = map fst f.
Proof. exact names_in_order. Qed.
Print Assumptions C31_materials_in_order.

Example C31_example : text_says mtl_demo mtl_demo_file /\ parse mtl_demo = Ok (file_means mtl_demo_file).
Proof. split; [exact mtl_demo_says|vm_compute; reflexivity]. Qed.

(** * C32 *)

(** The last statement for a field decides. *)
Theorem C32_color_last : forall input set f i n ss m, parse input = Ok set -> text_says input f ->
  nth_error (materials set) i = Some m -> nth_error f i = Some (n, ss) ->
  forall k a c b, ss = a ++ SetColor k c :: b -> (forall c', ~ In (SetColor k c') b) -> color_of k m = c.
Proof. exact color_last. Qed.
Print Assumptions C32_color_last.

Theorem C32_number_last : forall input set f i n ss m, parse input = Ok set -> text_says input f ->
  nth_error (materials set) i = Some m -> nth_error f i = Some (n, ss) ->
  forall k a x b, ss = a ++ SetNumber k x :: b -> (forall x', ~ In (SetNumber k x') b) ->
  match k with Ns => specular_exponent m = x | D => dissolve m = x | Ni => optical_density m = Some x end.
Proof. exact number_last. Qed.
Print Assumptions C32_number_last.

Theorem C32_illum_last : forall input set f i n ss m, parse input = Ok set -> text_says input f ->
  nth_error (materials set) i = Some m -> nth_error f i = Some (n, ss) ->
  forall a x b, ss = a ++ SetIllum x :: b -> (forall x', ~ In (SetIllum x') b) -> illumination_model m = x.
Proof. exact illum_last. Qed.
Print Assumptions C32_illum_last.

Theorem C32_map_last : forall input set f i n ss m, parse input = Ok set -> text_says input f ->
  nth_error (materials set) i = Some m -> nth_error f i = Some (n, ss) ->
  forall k a nm b, ss = a ++ SetMap k nm :: b -> (forall nm', ~ In (SetMap k nm') b) -> map_of k m = Some nm.
Proof. exact MtlFacts.map_last. Qed.
Print Assumptions C32_map_last.

(** Without one the field has its default. *)
Theorem C32_color_default : forall input set f i n ss m, parse input = Ok set -> text_says input f ->
  nth_error (materials set) i = Some m -> nth_error f i = Some (n, ss) ->
  forall k, (forall c, ~ In (SetColor k c) ss) -> color_of k m = mkColor f64_zero f64_zero f64_zero.
Proof. exact color_default. Qed.
Print Assumptions C32_color_default.

Theorem C32_number_default : forall input set f i n ss m, parse input = Ok set -> text_says input f ->
  nth_error (materials set) i = Some m -> nth_error f i = Some (n, ss) ->
  forall k, (forall x, ~ In (SetNumber k x) ss) ->
  match k with Ns => specular_exponent m = f64_zero | D => dissolve m = f64_one | Ni => optical_density m = None end.
Proof. exact number_default. Qed.
Print Assumptions C32_number_default.

Theorem C32_illum_default : forall input set f i n ss m, parse input = Ok set -> text_says input f ->
  nth_error (materials set) i = Some m -> nth_error f i = Some (n, ss) ->
  (forall x, ~ In (SetIllum x) ss) -> illumination_model m = AmbientDiffuseSpecular.
Proof. exact illum_default. Qed.
Print Assumptions C32_illum_default.

Theorem C32_map_default : forall input set f i n ss m, parse input = Ok set -> text_says input f ->
  nth_error (materials set) i = Some m -> nth_error f i = Some (n, ss) ->
  forall k, (forall nm, ~ In (SetMap k nm) ss) -> map_of k m = None.
Proof. exact map_default. Qed.
Print Assumptions C32_map_default.

Theorem C32_different_fields_commute : forall input input' f before after n a s s' b,
  f = before ++ (n, a ++ s :: s' :: b) :: after -> ~ same_field s s' ->
  text_says input f -> text_says input' (before ++ (n, a ++ s' :: s :: b) :: after) ->
  exists set, parse input = Ok set /\ parse input' = Ok set.
Proof. exact swapped. Qed.
Print Assumptions C32_different_fields_commute.

(** A material depends on its own statements only. *)
Theorem C32_own_statements : forall input input' set set' f f' i j, parse input = Ok set -> parse input' = Ok set' ->
  text_says input f -> text_says input' f' -> nth_error f i = nth_error f' j ->
  nth_error (materials set) i = nth_error (materials set') j.
Proof. exact alone. Qed.
Print Assumptions C32_own_statements.

Example C32_example : exists set red glass,
  parse mtl_demo = Ok set /\ materials set = [red; glass] /\
  color_of Kd red = mkColor (num "0.25") (num "0") (num "0") /\ color_of Ke red = black /\
  illumination_model red = AmbientDiffuse /\ illumination_model glass = AmbientDiffuseSpecular /\
  map_of MapBump glass = Some (lit "c.png") /\ map_of MapKd glass = None /\
  optical_density glass = Some (num "1.5") /\ optical_density red = None /\
  dissolve red = f64_one /\ dissolve glass = num "0.1" /\ specular_exponent glass = f64_zero.
Proof. eexists _, _, _. vm_compute. repeat split; reflexivity. Qed.

Example C32_commute_example :
  parse (text "newmtl m|Ka 1 2 3|d 0.5|Ns 7") = parse (text "newmtl m|d 0.5|Ka 1 2 3|Ns 7") /\
  exists set, parse (text "newmtl m|Ka 1 2 3|d 0.5|Ns 7") = Ok set /\ materials set <> [].
Proof. split; [vm_compute; reflexivity|]. eexists. split; [vm_compute; reflexivity|discriminate]. Qed.

(** * C34 *)

(** [illum t] in a text that parses: [t] is 0, 1 or 2. *)
Theorem C34_accepted : forall input set f ts n ss ts' t rest,
  says_file f ts -> says_settings ss ts' ->
  tokenizes input (ts ++ lit "newmtl" :: n :: ts' ++ lit "illum" :: t :: rest) ->
  parse input = Ok set ->
  exists k i ss', RustStd.parse_usize t = Some k /\ illum_number k i /\
    exists m, nth_error (materials set) (length f) = Some m /\ m = material_of (n, ss ++ SetIllum i :: ss').
Proof. exact illum_known. Qed.
Print Assumptions C34_accepted.

(** The value, when it is the last one of its material. *)
Theorem C34_value : forall input set f ts n ss ts' t k i rest m,
  says_file f ts -> says_settings ss ts' ->
  tokenizes input (ts ++ lit "newmtl" :: n :: ts' ++ lit "illum" :: t :: rest) ->
  RustStd.parse_usize t = Some k -> illum_number k i ->
  (rest = [] \/ exists rest', rest = lit "newmtl" :: rest') ->
  parse input = Ok set -> nth_error (materials set) (length f) = Some m -> illumination_model m = i.
Proof. exact illum_value. Qed.
Print Assumptions C34_value.

Theorem C34_unknown : forall input f ts n ss ts' t k rest,
  says_file f ts -> says_settings ss ts' ->
  tokenizes input (ts ++ lit "newmtl" :: n :: ts' ++ lit "illum" :: t :: rest) ->
  RustStd.parse_usize t = Some k -> (2 < k)%N ->
  exists e, parse input = Err e /\ err_kind e = UnknownIlluminationModel.
Proof. exact illum_unknown. Qed.
Print Assumptions C34_unknown.

Theorem C34_not_an_integer : forall input f ts n ss ts' t rest,
  says_file f ts -> says_settings ss ts' ->
  tokenizes input (ts ++ lit "newmtl" :: n :: ts' ++ lit "illum" :: t :: rest) ->
  RustStd.parse_usize t = None ->
  exists e, parse input = Err e /\ err_kind e = ExpectedInteger.
Proof. exact illum_not_integer. Qed.
Print Assumptions C34_not_an_integer.

Theorem C34_end_of_input : forall input f ts n ss ts',
  says_file f ts -> says_settings ss ts' ->
  tokenizes input (ts ++ lit "newmtl" :: n :: ts' ++ [lit "illum"]) ->
  exists e, parse input = Err e /\ err_kind e = EndOfFile.
Proof. exact illum_ends. Qed.
Print Assumptions C34_end_of_input.

Example C34_example :
  (forall t i, In (t, i) [(lit "0", Ambient); (lit "1", AmbientDiffuse); (lit "+2", AmbientDiffuseSpecular)] ->
    exists set m, parse (text "newmtl a|illum " ++ t) = Ok set /\ materials set = [m] /\ illumination_model m = i) /\
  parse (text "newmtl a|illum 3") = Err (mkParseError 2 UnknownIlluminationModel (lit "Unknown illumination model: 3.")) /\
  parse (text "newmtl a|illum -1") = Err (mkParseError 2 ExpectedInteger (lit "Expected integer but got -1")) /\
  parse (text "newmtl a|illum 1.0") = Err (mkParseError 2 ExpectedInteger (lit "Expected integer but got 1.0")).
Proof.
  split; [|vm_compute; repeat split; reflexivity]. intros t i [E|[E|[E|[]]]]; injection E as <- <-;
    eexists _, _; vm_compute; repeat split; reflexivity.
Qed.

(** * C24 *)

Theorem C24_mtl_error_line : forall input e, parse input = Err e ->
  exists x y z tx ty tz, input = x ++ y ++ z /\
    tokenizes x tx /\ tokenizes y ty /\ tokenizes z tz /\ tokenizes input (tx ++ ty ++ tz) /\
    fails_at tx (ty ++ tz) (err_kind e, err_message e) tz /\
    err_line_number e = line_after (x ++ y) /\ line_after x <= err_line_number e <= line_after x + 1.
Proof. exact error_place. Qed.
Print Assumptions C24_mtl_error_line.

Theorem C24_mtl_error_line_bounds : forall input e, parse input = Err e ->
  1 <= err_line_number e <= 1 + count_occ ascii_dec input LF.
Proof. exact error_bounds. Qed.
Print Assumptions C24_mtl_error_line_bounds.

(** And every such place gives this error. *)
Theorem C24_mtl_error_iff : forall input e, parse input = Err e <->
  exists x y z tx ty tz, input = x ++ y ++ z /\
    tokenizes x tx /\ tokenizes y ty /\ tokenizes z tz /\ tokenizes input (tx ++ ty ++ tz) /\
    fails_at tx (ty ++ tz) (err_kind e, err_message e) tz /\ err_line_number e = line_after (x ++ y).
Proof. exact error_iff. Qed.
Print Assumptions C24_mtl_error_iff.

Example C24_mtl_example :
  parse (text "|newmtl a|Ka 1 2|Ns 1") = Err (mkParseError 4 ExpectedFloat (msg_float nl)) /\
  parse (text "|newmtl a|Ka 1 x|Ns 1") = Err (mkParseError 3 ExpectedFloat (msg_float (lit "x"))) /\
  parse (text "|newmtl a|Tr 1|Ns 1") = Err (mkParseError 3 ErrorParsingMaterial (msg_material (lit "Tr"))).
Proof. vm_compute. repeat split; reflexivity. Qed.

(** * C09 *)

Theorem C09_mtl_blank_lines : forall x y set, parse (x ++ LF :: y) = Ok set -> parse (x ++ LF :: LF :: y) = Ok set.
Proof. exact blank_line. Qed.
Print Assumptions C09_mtl_blank_lines.

(** Also where the newline is a name. *)
Example C09_mtl_example : exists set,
  parse (text "newmtl a|Ka 1 2 3|map_Ka" ++ LF :: text "Ns 1|") = Ok set /\
  parse (text "newmtl a|Ka 1 2 3|map_Ka" ++ LF :: LF :: text "Ns 1|") = Ok set /\ materials set <> [].
Proof. eexists. split; [vm_compute; reflexivity|]. split; [vm_compute; reflexivity|discriminate]. Qed.

(** * C39 *)

Theorem C39_mtl_names : forall input set, parse input = Ok set -> forall m, In m (materials set) ->
  proper_name input (name m) /\ forall nm, In (Some nm) (map_names m) -> proper_name input nm.
Proof. exact names. Qed.
Print Assumptions C39_mtl_names.

Example C39_mtl_example : exists set m,
  parse (text "newmtl Red;.1#x|map_Kd a/b-c.png") = Ok set /\ materials set = [m] /\ name m = lit "Red;.1" /\
  map_diffuse m = Some (lit "a/b-c.png").
Proof. eexists _, _. vm_compute. repeat split; reflexivity. Qed.

(** * C40 *)

Theorem C40_second_parse_mtlset : forall input set p,
  parse_mtlset (fuel_for input) (parser_new input) = (Ok set, p) ->
  fst (parse_mtlset (fuel_for input) p) = Ok (mkMaterialSet []).
Proof. exact second_call. Qed.
Print Assumptions C40_second_parse_mtlset.

Example C40_mtl_example : exists set p,
  parse_mtlset (fuel_for mtl_demo) (parser_new mtl_demo) = (Ok set, p) /\ materials set <> [] /\ line_number p = 13.
Proof. eexists _, _. split; [vm_compute; reflexivity|]. split; [discriminate|reflexivity]. Qed.

(** * C42 *)

Theorem C42_mtl_size : forall input set, parse input = Ok set -> 2 * length (materials set) <= length input.
Proof. exact size. Qed.
Print Assumptions C42_mtl_size.

Example C42_mtl_example : exists set, parse mtl_demo = Ok set /\ length (materials set) = 2.
Proof. eexists. split; vm_compute; reflexivity. Qed.

(** * C43 *)

Theorem C43_mtl_names_are_not_newlines_refuted :
  ~ (forall input set m, parse input = Ok set -> In m (materials set) -> name m <> nl) /\
  ~ (forall input set m, parse input = Ok set -> In m (materials set) -> ~ In (Some nl) (map_names m)).
Proof.
  split; intros H.
  - apply (H (text "newmtl|Ka 1 0 0") (file_means [(nl, [SetColor Ka (mkColor (num "1") (num "0") (num "0"))])])
      (material_of (nl, [SetColor Ka (mkColor (num "1") (num "0") (num "0"))]))); [vm_compute; reflexivity|now left|reflexivity].
  - apply (H (text "newmtl a|map_Ka|Ns 1") (file_means [(lit "a", [SetMap MapKa nl; SetNumber Ns (num "1")])])
      (material_of (lit "a", [SetMap MapKa nl; SetNumber Ns (num "1")]))); [vm_compute; reflexivity|now left|now left].
Qed.
Print Assumptions C43_mtl_names_are_not_newlines_refuted.
