(** Polygons and triangles as sets of points, in exact real numbers.
    Independent of the model. *)
From Verif Require Export AreaSpec.
Local Open Scope list_scope.
Local Open Scope R_scope.

Definition dot (p q : vec) : R := let '(a, b, c) := p in let '(x, y, z) := q in a * x + b * y + c * z.
Definition scale (k : R) (p : vec) : vec := let '(a, b, c) := p in (k * a, k * b, k * c).

(** Seen from the tip of [n], the way from [a] over [b] to [c] turns left: twice
    the area, with sign, times the length of [n]. *)
Definition turn (n a b c : vec) : R := dot n (cross (vsub b a) (vsub c a)).

(** All points in a plane at right angles to [n]. *)
Definition flat (n : vec) (l : list vec) : Prop := forall p q, In p l -> In q l -> dot n (vsub q p) = 0.

(** Any three corners, in order, turn left. *)
Definition convex (n : vec) (l : list vec) : Prop :=
  forall i j k a b c, (i < j < k)%nat -> nth_error l i = Some a -> nth_error l j = Some b -> nth_error l k = Some c ->
  0 < turn n a b c.

(** The points of a convex polygon: in its plane and to the left of every edge. *)
Definition in_polygon (n : vec) (l : list vec) (p : vec) : Prop :=
  flat n (p :: l) /\ forall a b, In (a, b) (round l) -> 0 <= turn n a b p.

(** The points of a triangle, and those not on an edge. *)
Definition in_triangle (t : vec * vec * vec) (p : vec) : Prop :=
  let '(a, b, c) := t in
  exists x y z, 0 <= x /\ 0 <= y /\ 0 <= z /\ x + y + z = 1 /\ p = vadd (scale x a) (vadd (scale y b) (scale z c)).
Definition inside_triangle (t : vec * vec * vec) (p : vec) : Prop :=
  let '(a, b, c) := t in
  exists x y z, 0 < x /\ 0 < y /\ 0 < z /\ x + y + z = 1 /\ p = vadd (scale x a) (vadd (scale y b) (scale z c)).

(** The triangles cover the polygon, nothing else, and do not overlap. *)
Definition tiles (n : vec) (l : list vec) (ts : list (vec * vec * vec)) : Prop :=
  (forall p, in_polygon n l p <-> exists t, In t ts /\ in_triangle t p) /\
  (forall i j t u p, (i < j)%nat -> nth_error ts i = Some t -> nth_error ts j = Some u ->
     inside_triangle t p -> ~ inside_triangle u p) /\
  (forall a b c, In (a, b, c) ts -> 0 < turn n a b c).

(** The same where corners may be the same or lie on a line.  Three corners, in
    order, do not turn right. *)
Definition weakly_convex (n : vec) (l : list vec) : Prop :=
  forall i j k a b c, (i < j < k)%nat -> nth_error l i = Some a -> nth_error l j = Some b -> nth_error l k = Some c ->
  0 <= turn n a b c.

(** The points between corners: the smallest convex set. *)
Inductive in_hull (l : list vec) : vec -> Prop :=
| hull_corner : forall p, In p l -> in_hull l p
| hull_between : forall t p q, 0 <= t <= 1 -> in_hull l p -> in_hull l q -> in_hull l (vadd (scale (1 - t) p) (scale t q)).

(** Triangles can now be flat: they have no inside. *)
Definition weakly_tiles (n : vec) (l : list vec) (ts : list (vec * vec * vec)) : Prop :=
  (forall p, in_hull l p <-> exists t, In t ts /\ in_triangle t p) /\
  (forall i j a b c d e f p, (i < j)%nat -> nth_error ts i = Some (a, b, c) -> nth_error ts j = Some (d, e, f) ->
     0 < turn n a b c \/ 0 < turn n d e f -> inside_triangle (a, b, c) p -> ~ inside_triangle (d, e, f) p) /\
  (forall a b c, In (a, b, c) ts -> 0 <= turn n a b c).
