(** MTL texts that write down given materials, and which materials there are.
    Independent of the parser model. *)
From Verif Require Export MtlSpec FloatSpec LineSpec RustFmt.
Local Open Scope list_scope.

(** * Descriptions *)

Definition number_of (f : number_field) (m : material) : option f64 :=
  match f with Ns => Some (specular_exponent m) | D => Some (dissolve m) | Ni => optical_density m end.

(** What a statement says is so in [m]. *)
Definition agrees (m : material) (s : setting) : Prop :=
  match s with
  | SetColor f c => color_of f m = c
  | SetNumber f x => number_of f m = Some x
  | SetIllum i => illumination_model m = i
  | SetMap f n => map_of f m = Some n
  end.

(** The statements [ss] describe [m]: in any order, possibly repeated, and with
    the defaults left out or not. *)
Record describes (ss : list setting) (m : material) : Prop := {
  described_true : Forall (agrees m) ss;
  described_color : forall f, color_of f m <> mkColor f64_zero f64_zero f64_zero -> In (SetColor f (color_of f m)) ss;
  described_exponent : specular_exponent m <> f64_zero -> In (SetNumber Ns (specular_exponent m)) ss;
  described_dissolve : dissolve m <> f64_one -> In (SetNumber D (dissolve m)) ss;
  described_density : forall x, optical_density m = Some x -> In (SetNumber Ni x) ss;
  described_illum : illumination_model m <> AmbientDiffuseSpecular -> In (SetIllum (illumination_model m)) ss;
  described_map : forall f n, map_of f m = Some n -> In (SetMap f n) ss
}.

(** [writes_material m ts]: [ts] is a material statement for [m] with its
    settings. *)
Definition writes_material (m : material) (ts : list bytes) : Prop :=
  exists ss ts', describes ss m /\ says_settings ss ts' /\ ts = lit "newmtl" :: name m :: ts'.

(** * A writer *)

Definition color_line (f : color_field) (c : color) : list bytes :=
  [color_word f; show_f64 (color_r c); show_f64 (color_g c); show_f64 (color_b c)].

Definition optional_line {A} (f : A -> list bytes) (o : option A) : list (list bytes) :=
  match o with Some a => [f a] | None => [] end.

Definition illum_digit (i : illumination) : bytes :=
  match i with Ambient => lit "0" | AmbientDiffuse => lit "1" | AmbientDiffuseSpecular => lit "2" end.

Definition material_lines (m : material) : list (list bytes) :=
  [[lit "newmtl"; name m];
   color_line Ka (color_ambient m); color_line Kd (color_diffuse m);
   color_line Ks (color_specular m); color_line Ke (color_emissive m);
   [lit "Ns"; show_f64 (specular_exponent m)]; [lit "d"; show_f64 (dissolve m)]] ++
  optional_line (fun x => [lit "Ni"; show_f64 x]) (optical_density m) ++
  [[lit "illum"; illum_digit (illumination_model m)]] ++
  optional_line (fun n => [lit "map_Ka"; n]) (map_ambient m) ++
  optional_line (fun n => [lit "map_Kd"; n]) (map_diffuse m) ++
  optional_line (fun n => [lit "map_Ks"; n]) (map_specular m) ++
  optional_line (fun n => [lit "map_Ke"; n]) (map_emissive m) ++
  optional_line (fun n => [lit "map_Ns"; n]) (map_specular_exponent m) ++
  optional_line (fun n => [lit "map_Bump"; n]) (map_bump m) ++
  optional_line (fun n => [lit "disp"; n]) (map_displacement m) ++
  optional_line (fun n => [lit "map_d"; n]) (map_dissolve m) ++
  optional_line (fun n => [lit "decal"; n]) (map_decal m).

Definition write_materials (ms : list material) : bytes :=
  unlines (map unwords (flat_map material_lines ms)).

(** * Materials that can be written *)

(** Every number is an [f64] (NaN, infinities and zeros of both signs
    included). *)
Definition color_f64 (c : color) : Prop := is_f64 (color_r c) /\ is_f64 (color_g c) /\ is_f64 (color_b c).

Definition material_f64 (m : material) : Prop :=
  (forall f, color_f64 (color_of f m)) /\ is_f64 (specular_exponent m) /\ is_f64 (dissolve m) /\
  (forall x, optical_density m = Some x -> is_f64 x).

Definition names_are (P : bytes -> Prop) (m : material) : Prop :=
  P (name m) /\ forall f n, map_of f m = Some n -> P n.
