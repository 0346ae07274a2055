(** What an MTL text says, and where and why reading one stops with an error.
    Independent of the model: only the data types that [mtl::parse] returns
    (MtlTypes.v) and the standard library's reading of numbers (RustStd.v) are
    used here. *)
From Verif Require Export TokenSpec MtlTypes.
Local Open Scope list_scope.

(** * Statements *)

Inductive color_field := Ka | Kd | Ks | Ke.
Inductive number_field := Ns | D | Ni.
Inductive map_field := MapKa | MapKd | MapKs | MapKe | MapNs | MapBump | Disp | MapD | Decal.

Inductive setting :=
| SetColor (f : color_field) (c : color)
| SetNumber (f : number_field) (x : f64)
| SetIllum (i : illumination)
| SetMap (f : map_field) (name : bytes).

Definition color_word (f : color_field) : bytes :=
  match f with Ka => lit "Ka" | Kd => lit "Kd" | Ks => lit "Ks" | Ke => lit "Ke" end.

Definition number_word (f : number_field) : bytes :=
  match f with Ns => lit "Ns" | D => lit "d" | Ni => lit "Ni" end.

(** Two words have the same meaning. *)
Inductive map_word : map_field -> bytes -> Prop :=
| word_map_Ka : map_word MapKa (lit "map_Ka")
| word_map_Kd : map_word MapKd (lit "map_Kd")
| word_map_Ks : map_word MapKs (lit "map_Ks")
| word_map_Ke : map_word MapKe (lit "map_Ke")
| word_map_Ns : map_word MapNs (lit "map_Ns")
| word_map_Bump : map_word MapBump (lit "map_Bump")
| word_bump : map_word MapBump (lit "bump")
| word_disp : map_word Disp (lit "disp")
| word_map_d : map_word MapD (lit "map_d")
| word_decal : map_word Decal (lit "decal").

Definition float_token (t : bytes) (x : f64) : Prop := RustStd.parse_f64 t = Some x.

Inductive illum_number : N -> illumination -> Prop :=
| illum_0 : illum_number 0 Ambient
| illum_1 : illum_number 1 AmbientDiffuse
| illum_2 : illum_number 2 AmbientDiffuseSpecular.

(** [says s line]: the statement [s] is written [line]. *)
Inductive says : setting -> list bytes -> Prop :=
| says_color f r g b x y z : float_token r x -> float_token g y -> float_token b z ->
    says (SetColor f (mkColor x y z)) [color_word f; r; g; b]
| says_number f t x : float_token t x -> says (SetNumber f x) [number_word f; t]
| says_illum t n i : RustStd.parse_usize t = Some n -> illum_number n i -> says (SetIllum i) [lit "illum"; t]
| says_map f w name : map_word f w -> says (SetMap f name) [w; name].

(** * Files *)

(** A file is a list of materials: a name and statements. *)
Definition mtl_file : Type := list (bytes * list setting).

(** Newlines are allowed (and not required) between statements. *)
Inductive says_settings : list setting -> list bytes -> Prop :=
| settings_end : says_settings [] []
| settings_blank ss ts : says_settings ss ts -> says_settings ss (nl :: ts)
| settings_more s line ss ts : says s line -> says_settings ss ts -> says_settings (s :: ss) (line ++ ts).

Inductive says_materials : mtl_file -> list bytes -> Prop :=
| materials_end : says_materials [] []
| materials_more name ss ts f ts' : says_settings ss ts -> says_materials f ts' ->
    says_materials ((name, ss) :: f) (lit "newmtl" :: name :: ts ++ ts').

Definition says_file (f : mtl_file) (ts : list bytes) : Prop :=
  exists n ts', ts = repeat nl n ++ ts' /\ says_materials f ts'.

(** * Meaning *)

(** The last value given for something. *)
Fixpoint last_of {A} (given : setting -> option A) (ss : list setting) : option A :=
  match ss with
  | [] => None
  | s :: ss' => match last_of given ss' with Some a => Some a | None => given s end
  end.

Definition given_color (f : color_field) (s : setting) : option color :=
  match s, f with
  | SetColor Ka c, Ka | SetColor Kd c, Kd | SetColor Ks c, Ks | SetColor Ke c, Ke => Some c
  | _, _ => None
  end.

Definition given_number (f : number_field) (s : setting) : option f64 :=
  match s, f with
  | SetNumber Ns x, Ns | SetNumber D x, D | SetNumber Ni x, Ni => Some x
  | _, _ => None
  end.

Definition given_illum (s : setting) : option illumination :=
  match s with SetIllum i => Some i | _ => None end.

Definition given_map (f : map_field) (s : setting) : option bytes :=
  match s, f with
  | SetMap MapKa n, MapKa | SetMap MapKd n, MapKd | SetMap MapKs n, MapKs | SetMap MapKe n, MapKe
  | SetMap MapNs n, MapNs | SetMap MapBump n, MapBump | SetMap Disp n, Disp | SetMap MapD n, MapD
  | SetMap Decal n, Decal => Some n
  | _, _ => None
  end.

Definition or_else {A} (o : option A) (default : A) : A :=
  match o with Some a => a | None => default end.

Definition black : color := mkColor f64_zero f64_zero f64_zero.

Definition material_of (m : bytes * list setting) : material :=
  let ss := snd m in
  let color f := or_else (last_of (given_color f) ss) black in
  let map f := last_of (given_map f) ss in
  mkMaterial (fst m) (color Ka) (color Kd) (color Ks) (color Ke)
    (or_else (last_of (given_number Ns) ss) f64_zero)
    (or_else (last_of (given_number D) ss) f64_one)
    (last_of (given_number Ni) ss)
    (or_else (last_of given_illum ss) AmbientDiffuseSpecular)
    (map MapKa) (map MapKd) (map MapKs) (map MapKe) (map MapNs) (map MapBump) (map Disp) (map MapD)
    (map Decal).

Definition file_means (f : mtl_file) : material_set := mkMaterialSet (map material_of f).

(** * Errors *)

(** An error: its kind and its message. *)
Definition complaint : Type := error_kind * bytes.

Definition msg_end : bytes := lit "Expected token but reached end of input.".
Definition msg_float (t : bytes) : bytes := lit "Expected floating point number but got " ++ t.
Definition msg_integer (t : bytes) : bytes := lit "Expected integer but got " ++ t.
Definition msg_illum (n : N) : bytes := lit "Unknown illumination model: " ++ show_N n ++ lit ".".
Definition msg_map_end : bytes := lit "Expected texture map name but got end of input.".
Definition msg_name_end : bytes := lit "Expected material name but got end of input.".
Definition msg_material (t : bytes) : bytes := lit "Could not parse the token `" ++ t ++ lit "`.".
Definition msg_not_end (t : bytes) : bytes := lit "Expected end of input but got `" ++ t ++ lit "`.".

Inductive not_float : list bytes -> complaint -> list bytes -> Prop :=
| float_missing : not_float [] (EndOfFile, msg_end) []
| float_wrong t rest : (forall x, ~ float_token t x) ->
    not_float (t :: rest) (ExpectedFloat, msg_float t) rest.

(** The first word of a statement. *)
Definition keyword (t : bytes) : Prop :=
  (exists f, t = color_word f) \/ (exists f, t = number_word f) \/ t = lit "illum" \/ (exists f, map_word f t).

(** [fails_setting ts c rest]: reading a statement from [ts] fails with [c]; the
    tokens in front of [rest] have been consumed by then. *)
Inductive fails_setting : list bytes -> complaint -> list bytes -> Prop :=
| fails_r f ts c rest : not_float ts c rest -> fails_setting (color_word f :: ts) c rest
| fails_g f r x ts c rest : float_token r x -> not_float ts c rest ->
    fails_setting (color_word f :: r :: ts) c rest
| fails_b f r x g y ts c rest : float_token r x -> float_token g y -> not_float ts c rest ->
    fails_setting (color_word f :: r :: g :: ts) c rest
| fails_number f ts c rest : not_float ts c rest -> fails_setting (number_word f :: ts) c rest
| fails_illum_end : fails_setting [lit "illum"] (EndOfFile, msg_end) []
| fails_illum_integer t rest : RustStd.parse_usize t = None ->
    fails_setting (lit "illum" :: t :: rest) (ExpectedInteger, msg_integer t) rest
| fails_illum t n rest : RustStd.parse_usize t = Some n -> (forall i, ~ illum_number n i) ->
    fails_setting (lit "illum" :: t :: rest) (UnknownIlluminationModel, msg_illum n) rest
| fails_map f w : map_word f w -> fails_setting [w] (EndOfFile, msg_map_end) []
| fails_unknown t ts : ~ keyword t -> t <> nl -> t <> lit "newmtl" ->
    fails_setting (t :: ts) (ErrorParsingMaterial, msg_material t) (t :: ts).

(** [fails_file ts c rest]: the file fails with [c], and the tokens in front of
    [rest] have been consumed by then. *)
Inductive fails_file : list bytes -> complaint -> list bytes -> Prop :=
| fails_start n t rest : t <> nl -> t <> lit "newmtl" ->
    fails_file (repeat nl n ++ t :: rest) (ExpectedEndOfInput, msg_not_end t) (t :: rest)
| fails_name f ts : says_file f ts ->
    fails_file (ts ++ [lit "newmtl"]) (EndOfFile, msg_name_end) []
| fails_in f ts name ss ts' ts'' c rest :
    says_file f ts -> says_settings ss ts' -> fails_setting ts'' c rest ->
    fails_file (ts ++ lit "newmtl" :: name :: ts' ++ ts'') c rest.

(** Reading fails with [c] at the statement that starts at [from], behind
    [before]. *)
Inductive fails_at : list bytes -> list bytes -> complaint -> list bytes -> Prop :=
| fails_at_start n t rest : t <> nl -> t <> lit "newmtl" ->
    fails_at (repeat nl n) (t :: rest) (ExpectedEndOfInput, msg_not_end t) (t :: rest)
| fails_at_name f before : says_file f before ->
    fails_at before [lit "newmtl"] (EndOfFile, msg_name_end) []
| fails_at_setting f ts name ss ts' from c rest :
    says_file f ts -> says_settings ss ts' -> fails_setting from c rest ->
    fails_at (ts ++ lit "newmtl" :: name :: ts') from c rest.

(** * Texts *)

(** [input] is a text that says [f]. *)
Definition text_says (input : bytes) (f : mtl_file) : Prop := exists ts, tokenizes input ts /\ says_file f ts.

(** * Fields *)

Definition color_of (f : color_field) (m : material) : color :=
  match f with Ka => color_ambient m | Kd => color_diffuse m | Ks => color_specular m | Ke => color_emissive m end.

Definition map_of (f : map_field) (m : material) : option bytes :=
  match f with
  | MapKa => map_ambient m | MapKd => map_diffuse m | MapKs => map_specular m | MapKe => map_emissive m
  | MapNs => map_specular_exponent m | MapBump => map_bump m | Disp => map_displacement m
  | MapD => map_dissolve m | Decal => map_decal m
  end.

(** The names of all maps. *)
Definition map_names (m : material) : list (option bytes) :=
  [map_ambient m; map_diffuse m; map_specular m; map_emissive m; map_specular_exponent m; map_bump m;
   map_displacement m; map_dissolve m; map_decal m].

(** Two statements about the same field. *)
Definition same_field (s s' : setting) : Prop :=
  match s, s' with
  | SetColor f _, SetColor f' _ => f = f'
  | SetNumber f _, SetNumber f' _ => f = f'
  | SetIllum _, SetIllum _ => True
  | SetMap f _, SetMap f' _ => f = f'
  | _, _ => False
  end.
