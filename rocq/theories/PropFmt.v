(** How numbers are displayed: C63.  FmtSpec.v says what the text of a number is. *)
From Coq Require Import Floats.SpecFloat.
From Verif Require Import ObjModel DisplayModel DisplaySpec FmtSpec ExampleText FmtText.
Local Open Scope list_scope.

(** * C63 *)

(** The texts of the coordinates are these and no others. *)
Theorem C63_vertex : forall v t, vertex_f64 v ->
  show_vertex v = Some t <-> exists a b c d, number_text a (vx v) /\ number_text b (vy v) /\ number_text c (vz v) /\ number_text d (vw v) /\
    t = lit "v  " ++ a ++ lit "  " ++ b ++ lit "  " ++ c ++ lit "  " ++ d.
Proof. intros v t (H1 & H2 & H3 & H4). now apply show_vertex_text. Qed.
Print Assumptions C63_vertex.

Theorem C63_texture_vertex : forall v t, texture_f64 v ->
  show_texture_vertex v = Some t <-> exists a b c, number_text a (tu v) /\ number_text b (tv v) /\ number_text c (tw v) /\
    t = lit "vt  " ++ a ++ lit "  " ++ b ++ lit "  " ++ c.
Proof. intros v t (H1 & H2 & H3). now apply show_texture_text. Qed.
Print Assumptions C63_texture_vertex.

Theorem C63_normal_vertex : forall v t, normal_f64 v ->
  show_normal_vertex v = Some t <-> exists a b c, number_text a (nx v) /\ number_text b (ny v) /\ number_text c (nz v) /\
    t = lit "vn  " ++ a ++ lit "  " ++ b ++ lit "  " ++ c.
Proof. intros v t (H1 & H2 & H3). now apply show_normal_text. Qed.
Print Assumptions C63_normal_vertex.

(** No notation of a number that is read has fewer significant digits than the
    one displayed, which is read, too. *)
Theorem C63_fewest_digits : forall s m e t neg d k e', is_f64 (S754_finite s m e) ->
  decimal_text t neg d k e' -> (Z.of_nat (List.length t) <= 60000)%Z \/ (-65536 < e' < 65536)%Z ->
  parse_f64 t = Some (S754_finite s m e) ->
  exists d' k', plain_text (show_f64 (S754_finite s m e)) s d' k' /\ parse_f64 (show_f64 (S754_finite s m e)) = Some (S754_finite s m e) /\
    forall n, at_most_digits n d -> at_most_digits n d'.
Proof. exact show_fewest. Qed.
Print Assumptions C63_fewest_digits.

(** Vertices of a file, as displayed. *)
Definition displayed (input : bytes) : list (option bytes) :=
  match ObjModel.parse true input with
  | Ok set => flat_map (fun ob => map show_vertex (vertex_set ob)) (objects set)
  | _ => []
  end.

(** The last number lies halfway between ...624.2 and ...624.3. *)
Example C63_example :
  displayed (text "v 0.1000000000000000055511 .3 1e3 -2.50|v 0.30000000000000004 1e22 123456789012345680 0.000001|v inf -0 nan 1125899906842624.25|p 1") =
  map Some [lit "v  0.1  0.3  1000  -2.5";
            lit "v  0.30000000000000004  10000000000000000000000  123456789012345680  0.000001";
            lit "v  inf  -0  NaN  1125899906842624.3"].
Proof. vm_compute. reflexivity. Qed.

(** The smallest number. *)
Example C63_example_smallest :
  displayed (text "v 4.9406564584124654e-324 0 0|p 1") =
  [Some (lit "v  0." ++ repeat "0"%char 323 ++ lit "5  0  0  1")].
Proof. vm_compute. reflexivity. Qed.

(** The numbers of the examples are [f64]s. *)
Example C63_example_f64 : match parse_f64 (lit "1125899906842624.25") with Some x => is_f64 x /\ show_f64 x = lit "1125899906842624.3" | None => False end.
Proof. vm_compute. split; reflexivity. Qed.
