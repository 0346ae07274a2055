(** What [Display] should show.  Independent of the model. *)
From Verif Require Export ObjView NumberSpec FloatSpec IndexSpec LineSpec.
Local Open Scope list_scope.

(** * Elements an object with [nv], [nt] and [nn] vertices, texture vertices and
    normals can have *)

Definition index_in (nv nt nn : nat) (i : vtn_index) : Prop :=
  index_vertex i < nv /\ (forall k, index_texture i = Some k -> k < nt) /\ (forall k, index_normal i = Some k -> k < nn).

Definition element_in (nv nt nn : nat) (e : element) : Prop :=
  Forall (index_in nv nt nn) (corners (draw_element e)) /\
  (forall a b, In a (corners (draw_element e)) -> In b (corners (draw_element e)) -> index_form a = index_form b) /\
  (forall a, e = Point a -> exists k, a = V k).

(** Every number in it is below [usize::MAX]. *)
Definition index_usize (i : vtn_index) : Prop :=
  forall k, k = index_vertex i \/ Some k = index_texture i \/ Some k = index_normal i -> (N.of_nat k < usize_max)%N.

Definition vertex_f64 (v : vertex) : Prop := is_f64 (vx v) /\ is_f64 (vy v) /\ is_f64 (vz v) /\ is_f64 (vw v).
Definition texture_f64 (v : texture_vertex) : Prop := is_f64 (tu v) /\ is_f64 (tv v) /\ is_f64 (tw v).
Definition normal_f64 (v : normal_vertex) : Prop := is_f64 (nx v) /\ is_f64 (ny v) /\ is_f64 (nz v).

(** * What is said about a set *)

(** The first and the last of the entries, and how many there are. *)
Definition reports (name : string) (entries : list bytes) (s : bytes) : Prop :=
  exists n, n <> [] /\ digits n (N.of_nat (length entries)) /\
  s = unlines [lit "    " ++ lit name ++ lit " set:";
               lit "        data: [" ++
                 match entries with
                 | [] => []
                 | first :: _ => lit "(" ++ first ++ lit ") ... (" ++ last entries [] ++ lit ")"
                 end ++ lit "]";
               lit "        length: " ++ n].
