(** The texts of [Display] (README and src/obj.rs name no format; these are the
    ones the crate writes).  Independent of the model. *)
From Verif Require Export DisplaySpec FmtSpec.
Local Open Scope char_scope.
Local Open Scope list_scope.

(** A whole number without superfluous zeros. *)
Definition numeral (s : bytes) (n : N) : Prop := plain_integer s /\ digits s n.

(** Indices are shown 1-based. *)
Definition position (s : bytes) (k : nat) : Prop := numeral s (N.of_nat (S k)).

Inductive index_text : bytes -> vtn_index -> Prop :=
| text_v a v : position a v -> index_text a (V v)
| text_vt a b v t : position a v -> position b t -> index_text (a ++ "/" :: b) (VT v t)
| text_vn a b v n : position a v -> position b n -> index_text (a ++ "/" :: "/" :: b) (VN v n)
| text_vtn a b c v t n : position a v -> position b t -> position c n -> index_text (a ++ "/" :: b ++ "/" :: c) (VTN v t n).

Inductive element_text : bytes -> element -> Prop :=
| text_point a i : index_text a i -> element_text (lit "p  " ++ a) (Point i)
| text_line a b i j : index_text a i -> index_text b j -> element_text (lit "l  " ++ a ++ lit "  " ++ b) (Line i j)
| text_face a b c i j k : index_text a i -> index_text b j -> index_text c k ->
    element_text (lit "f  " ++ a ++ lit "  " ++ b ++ lit "  " ++ c) (Face i j k).

Definition group_text (s : bytes) (g : group) : Prop := s = g.

Inductive smoothing_text : bytes -> smoothing_group -> Prop :=
| text_off : smoothing_text (lit "off") 0%N
| text_smoothing s n : n <> 0%N -> numeral s n -> smoothing_text s n.

Inductive vertex_text : bytes -> vertex -> Prop :=
| text_vertex a b c d x y z w : number_text a x -> number_text b y -> number_text c z -> number_text d w ->
    vertex_text (lit "v  " ++ a ++ lit "  " ++ b ++ lit "  " ++ c ++ lit "  " ++ d) (mkVertex x y z w).

Inductive texture_text : bytes -> texture_vertex -> Prop :=
| text_texture a b c x y z : number_text a x -> number_text b y -> number_text c z ->
    texture_text (lit "vt  " ++ a ++ lit "  " ++ b ++ lit "  " ++ c) (mkTextureVertex x y z).

Inductive normal_text : bytes -> normal_vertex -> Prop :=
| text_normal a b c x y z : number_text a x -> number_text b y -> number_text c z ->
    normal_text (lit "vn  " ++ a ++ lit "  " ++ b ++ lit "  " ++ c) (mkNormalVertex x y z).

(** The first and the last entry of a list, and its length. *)
Inductive data_text {A} (P : bytes -> A -> Prop) : bytes -> list A -> Prop :=
| text_none : data_text P [] []
| text_ends a b x l : P a x -> P b (last l x) -> data_text P (lit "(" ++ a ++ lit ") ... (" ++ b ++ lit ")") (x :: l).

Inductive list_text {A} (title : string) (P : bytes -> A -> Prop) : bytes -> list A -> Prop :=
| text_list d n l : data_text P d l -> numeral n (N.of_nat (length l)) ->
    list_text title P (unlines [lit "    " ++ lit title ++ lit " set:"; lit "        data: [" ++ d ++ lit "]"; lit "        length: " ++ n]) l.

Inductive object_text : bytes -> object -> Prop :=
| text_object ob sv st sn sg ss se :
    list_text "vertex" vertex_text sv (vertex_set ob) -> list_text "texture vertex" texture_text st (texture_vertex_set ob) ->
    list_text "normal vertex" normal_text sn (normal_vertex_set ob) -> list_text "group" group_text sg (group_set ob) ->
    list_text "smoothing group" smoothing_text ss (smoothing_group_set ob) -> list_text "element" element_text se (element_set ob) ->
    object_text (unlines [lit "Object {"; lit "    name: " ++ name ob] ++ sv ++ st ++ sn ++ sg ++ ss ++ se ++ unlines [lit "}}"]) ob.

Inductive set_text : bytes -> object_set -> Prop :=
| text_set set ts : Forall2 object_text ts (objects set) ->
    set_text (unlines [lit "ObjectSet {"] ++ unlines ts ++ unlines [lit "}"]) set.

(** Objects that can be shown: their numbers are [f64]s and [usize]s, and no index
    is [usize::MAX]. *)
Definition showable (ob : object) : Prop :=
  Forall vertex_f64 (vertex_set ob) /\ Forall texture_f64 (texture_vertex_set ob) /\ Forall normal_f64 (normal_vertex_set ob) /\
  Forall (fun e => Forall index_usize (corners (draw_element e))) (element_set ob).

(** Lists of which the same is shown. *)
Definition alike {A} (l l' : list A) : Prop :=
  length l = length l' /\ hd_error l = hd_error l' /\ (forall d, last l d = last l' d).

Definition objects_alike (a b : object) : Prop :=
  name a = name b /\ alike (vertex_set a) (vertex_set b) /\ alike (texture_vertex_set a) (texture_vertex_set b) /\
  alike (normal_vertex_set a) (normal_vertex_set b) /\ alike (group_set a) (group_set b) /\
  alike (smoothing_group_set a) (smoothing_group_set b) /\ alike (element_set a) (element_set b).
