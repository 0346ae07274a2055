(** Model of the derived [PartialOrd]/[Ord] of src/mtl.rs, of the derived
    [PartialEq] of indices into objects and of errors, and of the derived
    [Default] of src/obj.rs. *)
From Coq Require Import Floats.SpecFloat.
From Verif Require Import ParserBase ObjTypes MtlTypes EqModel.
Local Open Scope list_scope.

(** [f64::partial_cmp]. *)
Definition f64_partial_cmp (x y : f64) : option comparison := SFcompare x y.

(** mtl.rs:76, derived [PartialOrd] of [Color]: the fields in order, the next
    one only if the ones before are equal. *)
Definition color_partial_cmp (a b : color) : option comparison :=
  match f64_partial_cmp (color_r a) (color_r b) with
  | Some Eq =>
      match f64_partial_cmp (color_g a) (color_g b) with
      | Some Eq => f64_partial_cmp (color_b a) (color_b b)
      | c => c
      end
  | c => c
  end.

(** The provided methods [lt], [le], [gt], [ge] of [PartialOrd] (derived at
    mtl.rs:76). *)
Definition color_lt (a b : color) : bool := match color_partial_cmp a b with Some Lt => true | _ => false end.
Definition color_le (a b : color) : bool := match color_partial_cmp a b with Some Lt | Some Eq => true | _ => false end.
Definition color_gt (a b : color) : bool := match color_partial_cmp a b with Some Gt => true | _ => false end.
Definition color_ge (a b : color) : bool := match color_partial_cmp a b with Some Gt | Some Eq => true | _ => false end.

(** mtl.rs:103-111, derived [Ord] of [IlluminationModel]: the discriminants. *)
Definition illumination_discriminant (a : illumination) : N :=
  match a with Ambient => 0 | AmbientDiffuse => 1 | AmbientDiffuseSpecular => 2 end.
(** mtl.rs:103, the derived [cmp]. *)
Definition illumination_cmp (a b : illumination) : comparison :=
  N.compare (illumination_discriminant a) (illumination_discriminant b).

(** obj.rs:376, derived [PartialEq] of [VTNTriple]: references are compared by
    what they refer to. *)
Definition vtn_triple_eq (a b : vtn_triple) : bool :=
  match a, b with
  | TripleV v, TripleV v' => vertex_eq v v'
  | TripleVT v t, TripleVT v' t' => vertex_eq v v' && texture_vertex_eq t t'
  | TripleVN v n, TripleVN v' n' => vertex_eq v v' && normal_vertex_eq n n'
  | TripleVTN v t n, TripleVTN v' t' n' => vertex_eq v v' && texture_vertex_eq t t' && normal_vertex_eq n n'
  | _, _ => false
  end.

(** obj.rs:350-358, [struct Shape], which only users of the crate build, and its
    derived [PartialEq]. *)
Record shape := mkShape {
  shape_element : element;
  shape_groups : list group;
  shape_smoothing_groups : list smoothing_group
}.
(** obj.rs:350, the derived [==]. *)
Definition shape_eq (a b : shape) : bool :=
  element_eq (shape_element a) (shape_element b) &&
  vec_eq bytes_eqb (shape_groups a) (shape_groups b) &&
  vec_eq N.eqb (shape_smoothing_groups a) (shape_smoothing_groups b).

(** obj.rs:594 and mtl.rs:218, derived [PartialEq] of the two [ErrorKind]s: the
    discriminants. *)
Definition obj_kind_discriminant (k : ObjTypes.error_kind) : nat :=
  match k with
  | ObjTypes.EndOfFile => 0
  | ObjTypes.ExpectedTagStatement => 1
  | ObjTypes.ExpectedFloat => 2
  | ObjTypes.ExpectedInteger => 3
  | ObjTypes.ExpectedVTNIndex => 4
  | ObjTypes.VTNIndexOutOfRange => 5
  | ObjTypes.EveryFaceElementMustHaveAtLeastThreeVertices => 6
  | ObjTypes.EveryVTNIndexMustHaveTheSameFormForAGivenElement => 7
  | ObjTypes.InvalidObjectStatement => 8
  | ObjTypes.ElementMustBeAPointLineOrFace => 9
  | ObjTypes.SmoothingGroupNameMustBeOffOrInteger => 10
  | ObjTypes.SmoothingGroupDeclarationHasNoName => 11
  | ObjTypes.MaterialStatementHasNoName => 12
  end.

Definition mtl_kind_discriminant (k : MtlTypes.error_kind) : nat :=
  match k with
  | MtlTypes.EndOfFile => 0
  | MtlTypes.ExpectedTagStatement => 1
  | MtlTypes.ExpectedFloat => 2
  | MtlTypes.ExpectedInteger => 3
  | MtlTypes.ExpectedEndOfInput => 4
  | MtlTypes.UnknownIlluminationModel => 5
  | MtlTypes.ErrorParsingMaterial => 6
  end.

(** obj.rs:627 and mtl.rs:239, derived [PartialEq] of the two [ParseError]s. *)
Definition parse_error_eq {K} (discriminant : K -> nat) (a b : parse_error K) : bool :=
  (err_line_number a =? err_line_number b) && (discriminant (err_kind a) =? discriminant (err_kind b)) &&
  bytes_eqb (err_message a) (err_message b).

(** obj.rs:387, derived [Default] of [Object]. *)
Definition object_default : object := mkObject [] [] [] [] [] [] [] [] [].
