(** Areas as vectors, in exact real numbers.  Independent of the model. *)
From Coq Require Import Reals.
From Verif Require Export FloatSpec SurfaceSpec.
Local Open Scope list_scope.
Local Open Scope R_scope.

Definition vec : Type := R * R * R.
Definition vzero : vec := (0, 0, 0).
Definition vadd (p q : vec) : vec := let '(a, b, c) := p in let '(x, y, z) := q in (a + x, b + y, c + z).
Definition vsub (p q : vec) : vec := let '(a, b, c) := p in let '(x, y, z) := q in (a - x, b - y, c - z).
Definition cross (p q : vec) : vec :=
  let '(a, b, c) := p in let '(x, y, z) := q in (b * z - c * y, c * x - a * z, a * y - b * x).

Definition vsum {A} (v : A -> vec) (l : list A) : vec := fold_right (fun a s => vadd (v a) s) vzero l.

(** Where a corner is. *)
Definition place (c : option vtn_triple) : vec :=
  match c with
  | Some (TripleV v) | Some (TripleVT v _) | Some (TripleVN v _) | Some (TripleVTN v _ _) => (value (vx v), value (vy v), value (vz v))
  | None => vzero
  end.

(** Twice the area of a triangle, as a vector along its normal. *)
Definition triangle_area (t : vec * vec * vec) : vec := let '(p, q, r) := t in cross (vsub q p) (vsub r p).

(** Twice the area vector of a polygon (Newell's formula). *)
Definition polygon_area (l : list vec) : vec := vsum (fun e => cross (fst e) (snd e)) (round l).
