(** The statements of docs/mtl_spec.md, the copy of the format specification
    that comes with the crate.  Independent of the parser model. *)
From Verif Require Export BlankSpec MtlSpec.
Local Open Scope list_scope.

(** * Syntax *)

(** docs/mtl_spec.md:133-299: the statements for reflectivity and for the
    transmission filter. *)
Inductive reflectivity := Ambient_Ka | Diffuse_Kd | Specular_Ks | Filter_Tf.

(** [r g b], [spectral file.rfl factor] and [xyz x y z].  All but the first
    value and the factor may be left out. *)
Inductive color_form :=
| RGB (r : bytes) (gb : list bytes)
| Spectral (file : bytes) (factor : list bytes)
| XYZ (x : bytes) (yz : list bytes).

(** docs/mtl_spec.md:463-687: the texture maps. *)
Inductive texture := Map_Ka | Map_Kd | Map_Ks | Map_Ns | Map_d | Map_decal | Map_disp | Map_bump.

(** docs/mtl_spec.md:689-840: an option and its arguments. *)
Inductive map_option :=
| Switch (word : string) (on : bool)
| Channel (c : string)
| Values (word : string) (v : bytes) (vs : list bytes).

(** docs/mtl_spec.md:872-905 *)
Inductive reflection_type := Sphere | Cube (side : string).

Inductive statement :=
| Reflectivity (k : reflectivity) (c : color_form)
| Illum (n : bytes)
| Dissolve (halo : bool) (factor : bytes)
| Exponent (x : bytes)
| Sharpness (x : bytes)
| Density (x : bytes)
| TextureMap (k : texture) (options : list map_option) (file : bytes)
| AntiAlias
| Reflection (t : reflection_type) (options : list map_option) (file : bytes).

Definition reflectivity_word (k : reflectivity) : bytes :=
  match k with Ambient_Ka => lit "Ka" | Diffuse_Kd => lit "Kd" | Specular_Ks => lit "Ks" | Filter_Tf => lit "Tf" end.

Definition texture_word (k : texture) : bytes :=
  match k with
  | Map_Ka => lit "map_Ka" | Map_Kd => lit "map_Kd" | Map_Ks => lit "map_Ks" | Map_Ns => lit "map_Ns"
  | Map_d => lit "map_d" | Map_decal => lit "decal" | Map_disp => lit "disp" | Map_bump => lit "bump"
  end.

Definition option_words (o : map_option) : list bytes :=
  match o with
  | Switch w on => [lit w; if on then lit "on" else lit "off"]
  | Channel c => [lit "-imfchan"; lit c]
  | Values w v vs => lit w :: v :: vs
  end.

Definition type_word (t : reflection_type) : bytes :=
  match t with Sphere => lit "sphere" | Cube side => lit "cube_" ++ lit side end.

(** The line of a statement. *)
Definition statement_line (s : statement) : list bytes :=
  match s with
  | Reflectivity k (RGB r gb) => reflectivity_word k :: r :: gb
  | Reflectivity k (Spectral f factor) => reflectivity_word k :: lit "spectral" :: f :: factor
  | Reflectivity k (XYZ x yz) => reflectivity_word k :: lit "xyz" :: x :: yz
  | Illum n => [lit "illum"; n]
  | Dissolve halo x => lit "d" :: (if halo then [lit "-halo"] else []) ++ [x]
  | Exponent x => [lit "Ns"; x]
  | Sharpness x => [lit "sharpness"; x]
  | Density x => [lit "Ni"; x]
  | TextureMap k os f => texture_word k :: flat_map option_words os ++ [f]
  | AntiAlias => [lit "map_aat"; lit "on"]
  | Reflection t os f => lit "refl" :: lit "-type" :: type_word t :: flat_map option_words os ++ [f]
  end.

(** What may be written there. *)
Definition is_number (w : bytes) : Prop := exists x, float_token w x.

Inductive option_ok : map_option -> Prop :=
| ok_switch w on : In w ["-blendu"; "-blendv"; "-cc"; "-clamp"]%string -> option_ok (Switch w on)
| ok_channel c : In c ["r"; "g"; "b"; "m"; "l"; "z"]%string -> option_ok (Channel c)
| ok_one w v : In w ["-bm"; "-boost"; "-texres"]%string -> is_number v -> option_ok (Values w v [])
| ok_two v v' : is_number v -> is_number v' -> option_ok (Values "-mm" v [v'])
| ok_three w v vs : In w ["-o"; "-s"; "-t"]%string -> is_number v -> Forall is_number vs -> length vs <= 2 ->
    option_ok (Values w v vs).

Inductive documented : statement -> Prop :=
| doc_rgb k r gb : is_number r -> Forall is_number gb -> length gb <= 2 -> documented (Reflectivity k (RGB r gb))
| doc_spectral k f factor : word f -> Forall is_number factor -> length factor <= 1 ->
    documented (Reflectivity k (Spectral f factor))
| doc_xyz k x yz : is_number x -> Forall is_number yz -> length yz <= 2 -> documented (Reflectivity k (XYZ x yz))
| doc_illum w n : RustStd.parse_usize w = Some n -> (n <= 10)%N -> documented (Illum w)
| doc_dissolve halo x : is_number x -> documented (Dissolve halo x)
| doc_exponent x : is_number x -> documented (Exponent x)
| doc_sharpness x : is_number x -> documented (Sharpness x)
| doc_density x : is_number x -> documented (Density x)
| doc_texture k os f : Forall option_ok os -> word f -> documented (TextureMap k os f)
| doc_aat : documented AntiAlias
| doc_sphere os f : Forall option_ok os -> word f -> documented (Reflection Sphere os f)
| doc_cube side os f : In side ["top"; "bottom"; "front"; "back"; "left"; "right"]%string ->
    Forall option_ok os -> word f -> documented (Reflection (Cube side) os f).

(** A file: materials, each with a name and statements. *)
Definition doc_file : Type := list (bytes * list statement).

Definition documented_file (d : doc_file) : Prop :=
  Forall (fun m => word (fst m) /\ Forall documented (snd m)) d.

(** Its lines. *)
Definition file_lines (d : doc_file) : list (list bytes) :=
  flat_map (fun m => [lit "newmtl"; fst m] :: map statement_line (snd m)) d.

(** [input] is a text of [d]. *)
Definition doc_text (input : bytes) (d : doc_file) : Prop :=
  exists lines, with_blanks (file_lines d) lines /\ tokenizes input (line_tokens lines).

(** * Meaning *)

(** What a statement says about the fields that [Material] has.  A colour of one
    value has this value three times. *)
Inductive statement_says : statement -> setting -> Prop :=
| says_rgb f k r g b x y z : reflectivity_word k = color_word f ->
    float_token r x -> float_token g y -> float_token b z ->
    statement_says (Reflectivity k (RGB r [g; b])) (SetColor f (mkColor x y z))
| says_gray f k r x : reflectivity_word k = color_word f -> float_token r x ->
    statement_says (Reflectivity k (RGB r [])) (SetColor f (mkColor x x x))
| says_illum_model w n i : RustStd.parse_usize w = Some n -> illum_number n i -> statement_says (Illum w) (SetIllum i)
| says_dissolve w x : float_token w x -> statement_says (Dissolve false w) (SetNumber D x)
| says_exponent w x : float_token w x -> statement_says (Exponent w) (SetNumber Ns x)
| says_density w x : float_token w x -> statement_says (Density w) (SetNumber Ni x)
| says_texture f k file : map_word f (texture_word k) -> statement_says (TextureMap k [] file) (SetMap f file).

(** The forms that the crate supports: three values for a colour, the
    illumination models 0 to 2, and no options. *)
Definition supported (s : statement) : Prop :=
  match s with
  | Reflectivity k (RGB _ gb) => k <> Filter_Tf /\ length gb = 2
  | Illum w => exists n, RustStd.parse_usize w = Some n /\ (n <= 2)%N
  | Dissolve halo _ => halo = false
  | Exponent _ | Density _ => True
  | TextureMap _ os _ => os = []
  | _ => False
  end.

(** [d] describes the materials [f]. *)
Definition describes (d : doc_file) (f : mtl_file) : Prop :=
  Forall2 (fun m m' => fst m = fst m' /\ Forall2 statement_says (snd m) (snd m')) d f.
