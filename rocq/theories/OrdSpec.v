(** When a colour is less than another one, and when two triples are the same up
    to the sign of zeros.  Independent of the model. *)
From Verif Require Import FloatSpec MtlWriteSpec ObjTypes MtlTypes EqSpec.
Local Open Scope list_scope.
Local Open Scope R_scope.

(** Real numbers with infinities. *)
Inductive number := Minus_infinity | Real (r : R) | Plus_infinity.

Definition number_lt (a b : number) : Prop :=
  match a, b with
  | Minus_infinity, Minus_infinity => False
  | Minus_infinity, _ => True
  | Real x, Real y => x < y
  | Real _, Plus_infinity => True
  | _, _ => False
  end.

(** [None] for NaN. *)
Definition real_of (x : f64) : option number :=
  match x with
  | S754_nan => None
  | S754_infinity s => Some (if s then Minus_infinity else Plus_infinity)
  | _ => Some (Real (value x))
  end.

Definition below (x y : f64) : Prop := exists a b, real_of x = Some a /\ real_of y = Some b /\ number_lt a b.
Definition same (x y : f64) : Prop := exists a, real_of x = Some a /\ real_of y = Some a.

(** Red counts first, then green, then blue. *)
Definition color_below (a b : color) : Prop :=
  below (color_r a) (color_r b) \/
  same (color_r a) (color_r b) /\
    (below (color_g a) (color_g b) \/ same (color_g a) (color_g b) /\ below (color_b a) (color_b b)).

Definition color_same (a b : color) : Prop :=
  same (color_r a) (color_r b) /\ same (color_g a) (color_g b) /\ same (color_b a) (color_b b).

Definition clean_triple (t : vtn_triple) : vtn_triple :=
  match t with
  | TripleV v => TripleV (clean_vertex v)
  | TripleVT v t => TripleVT (clean_vertex v) (clean_texture t)
  | TripleVN v n => TripleVN (clean_vertex v) (clean_normal n)
  | TripleVTN v t n => TripleVTN (clean_vertex v) (clean_texture t) (clean_normal n)
  end.

Definition vertex_numbers (v : vertex) : list f64 := [vx v; vy v; vz v; vw v].
Definition texture_numbers (v : texture_vertex) : list f64 := [tu v; tv v; tw v].
Definition normal_numbers (v : normal_vertex) : list f64 := [nx v; ny v; nz v].

Definition triple_numbers (t : vtn_triple) : list f64 :=
  match t with
  | TripleV v => vertex_numbers v
  | TripleVT v t => vertex_numbers v ++ texture_numbers t
  | TripleVN v n => vertex_numbers v ++ normal_numbers n
  | TripleVTN v t n => vertex_numbers v ++ texture_numbers t ++ normal_numbers n
  end.
