(** Different texts with the same meaning, and texts that differ in data only.
    Independent of the parser model. *)
From Verif Require Export ObjView.
(** [outcome] and [parse_error], the results of a parser. *)
From Verif Require Import ParserBase.
Local Open Scope list_scope.

(** * Statements that may change places *)

Inductive kind := KVertex | KTexture | KNormal | KGroup | KSmooth | KMaterial | KElement.

Definition kind_of (s : statement) : kind :=
  match s with
  | SVertex _ => KVertex
  | STexture _ => KTexture
  | SNormal _ => KNormal
  | SGroup _ => KGroup
  | SSmooth _ => KSmooth
  | SUse _ => KMaterial
  | SPoint _ | SLine _ | SFace _ => KElement
  end.

Definition data_kind (k : kind) : bool :=
  match k with KVertex | KTexture | KNormal => true | _ => false end.

(** Statements of different kinds, except that an element and something that
    determines its groups, smoothing or material are not independent. *)
Definition independent (s s' : statement) : Prop :=
  kind_of s <> kind_of s' /\
  (kind_of s = KElement -> data_kind (kind_of s') = true) /\
  (kind_of s' = KElement -> data_kind (kind_of s) = true).

(** * Elements written one by one *)

(** [es] are element statements that together write the same elements as [s]. *)
Definition same_elements (s : statement) (es : list statement) : Prop :=
  es <> [] /\ is_element s = true /\ Forall (fun e => is_element e = true) es /\ flat_map written es = written s.

(** * The same object further up or down in a file *)

Definition moved_number (base base' k k' : nat) : Prop := k + base' = k' + base.

Definition moved_part (base base' : nat) (k k' : option nat) : Prop :=
  match k, k' with
  | None, None => True
  | Some k, Some k' => moved_number base base' k k'
  | _, _ => False
  end.

Definition moved_ref (base base' : counts) (r r' : reference) : Prop :=
  moved_number (n_v base) (n_v base') (ref_v r) (ref_v r') /\
  moved_part (n_t base) (n_t base') (ref_t r) (ref_t r') /\
  moved_part (n_n base) (n_n base') (ref_n r) (ref_n r').

(** The same statement, with numbers that count from [base'] instead of [base]. *)
Inductive moved (base base' : counts) : statement -> statement -> Prop :=
| moved_point ks ks' : Forall2 (moved_number (n_v base) (n_v base')) ks ks' ->
    moved base base' (SPoint ks) (SPoint ks')
| moved_line rs rs' : Forall2 (moved_ref base base') rs rs' -> moved base base' (SLine rs) (SLine rs')
| moved_face rs rs' : Forall2 (moved_ref base base') rs rs' -> moved base base' (SFace rs) (SFace rs')
| moved_other s : is_element s = false -> moved base base' s s.

(** * Other data in the same places *)

Record transform := mkTransform {
  on_vertex : vertex -> vertex;
  on_texture : texture_vertex -> texture_vertex;
  on_normal : normal_vertex -> normal_vertex;
  on_group : bytes -> bytes;
  on_smoothing : N -> N;
  on_material : bytes -> bytes;
  on_name : bytes -> bytes;
  on_library : bytes -> bytes
}.

(** The names and numbers that the parser puts in itself stay the same. *)
Definition keeps_defaults (T : transform) : Prop :=
  on_group T (lit "default") = lit "default" /\ on_smoothing T 0%N = 0%N.

Definition map_statement (T : transform) (s : statement) : statement :=
  match s with
  | SVertex v => SVertex (on_vertex T v)
  | STexture v => STexture (on_texture T v)
  | SNormal v => SNormal (on_normal T v)
  | SGroup names => SGroup (map (on_group T) names)
  | SSmooth n => SSmooth (on_smoothing T n)
  | SUse m => SUse (on_material T m)
  | _ => s
  end.

Definition map_file (T : transform) (f : obj_file) : obj_file :=
  mkObjFile (map (on_library T) (file_libraries f))
    (map (fun '(n, ss) => (on_name T n, map (map_statement T) ss)) (file_objects f)).

Definition map_object (T : transform) (ob : object) : object :=
  {| name := on_name T (name ob);
     vertex_set := map (on_vertex T) (vertex_set ob);
     texture_vertex_set := map (on_texture T) (texture_vertex_set ob);
     normal_vertex_set := map (on_normal T) (normal_vertex_set ob);
     group_set := map (on_group T) (group_set ob);
     smoothing_group_set := map (on_smoothing T) (smoothing_group_set ob);
     element_set := element_set ob;
     shape_set := shape_set ob;
     geometry_set := map (fun g => mkGeometry (option_map (on_material T) (material_name g)) (shapes g)) (geometry_set ob) |}.

Definition map_set (T : transform) (set : object_set) : object_set :=
  mkObjectSet (map (on_library T) (material_libraries set)) (map (map_object T) (objects set)).

(** * Lines without statements at the top *)

(** Lines that are empty or contain separators and comments only. *)
Definition blank_lines (p : bytes) : Prop :=
  (p = [] \/ exists q, p = q ++ [LF]) /\ exists ts, tokenizes p ts /\ Forall (fun t => t = nl) ts.

(** The same result, with [n] added to the line number of an error. *)
Definition later {K A} (n : nat) (r : outcome (parse_error K) A) : outcome (parse_error K) A :=
  match r with
  | Err e => Err (mkParseError (n + err_line_number e) (err_kind e) (err_message e))
  | _ => r
  end.
