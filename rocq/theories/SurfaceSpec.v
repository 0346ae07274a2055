(** Polygons, triangles, and what they bound.  Independent of the model. *)
From Coq Require Import ZArith.
From Verif Require Export ObjView.
Local Open Scope list_scope.

(** The directed edges of a polygon: from each corner to the next, and from the
    last to the first. *)
Definition round {A} (l : list A) : list (A * A) :=
  match l with
  | [] => []
  | a :: _ => pairs (l ++ [a])
  end.

(** The corners of the polygons of some statements. *)
Definition polygons (ss : list statement) : list (list reference) :=
  flat_map (fun s => match s with SFace rs => [rs] | _ => [] end) ss.

(** The corners of the polylines. *)
Definition polylines (ss : list statement) : list (list reference) :=
  flat_map (fun s => match s with SLine rs => [rs] | _ => [] end) ss.

(** The triangles and the line segments of some elements. *)
Definition triangles {A} (l : list (drawn A)) : list (A * A * A) :=
  flat_map (fun d => match d with DFace a b c => [(a, b, c)] | _ => [] end) l.
Definition segments {A} (l : list (drawn A)) : list (A * A) :=
  flat_map (fun d => match d with DLine a b => [(a, b)] | _ => [] end) l.

Definition triangle_edges {A} (l : list (A * A * A)) : list (A * A) :=
  flat_map (fun '(a, b, c) => [(a, b); (b, c); (c, a)]) l.

Definition total {A} (w : A -> Z) (l : list A) : Z := fold_right (fun a n => (w a + n)%Z) 0%Z l.

(** The position in [vertex_set] of a corner of an element. *)
Definition index_vertex (i : vtn_index) : nat :=
  match i with V v | VT v _ | VN v _ | VTN v _ _ => v end.

(** How many of the edges go from [a] to [b]. *)
Definition edge_count (a b : nat) (l : list (nat * nat)) : nat :=
  length (filter (fun e => Nat.eqb (fst e) a && Nat.eqb (snd e) b) l).

(** Every edge is matched by one in the other direction. *)
Definition closed (l : list (nat * nat)) : Prop := forall a b, edge_count a b l = edge_count b a l.

(** The references of a statement. *)
Definition referred (s : statement) : list reference :=
  match s with
  | SPoint ks => map (fun k => mkRef k None None) ks
  | SLine rs | SFace rs => rs
  | _ => []
  end.
