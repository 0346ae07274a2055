(** Which object sets [obj::parse] can return, and a writer for all of them.
    Independent of the parser model. *)
From Verif Require Export ObjWriteSpec DisplaySpec RustFmt.
From Coq Require Import Sorting.Sorted.
Local Open Scope list_scope.

(** * A writer for statements *)

Definition numeral (k : nat) : bytes := show_N (N.of_nat k).

Definition show_ref (r : reference) : bytes :=
  numeral (ref_v r) ++
  match ref_t r, ref_n r with
  | None, None => []
  | Some t, None => slash ++ numeral t
  | None, Some n => slash ++ slash ++ numeral n
  | Some t, Some n => slash ++ numeral t ++ slash ++ numeral n
  end.

(** The words of the line for a statement. *)
Definition statement_line (s : statement) : list bytes :=
  match s with
  | SVertex v => [lit "v"; show_f64 (vx v); show_f64 (vy v); show_f64 (vz v); show_f64 (vw v)]
  | STexture v => [lit "vt"; show_f64 (tu v); show_f64 (tv v); show_f64 (tw v)]
  | SNormal v => [lit "vn"; show_f64 (nx v); show_f64 (ny v); show_f64 (nz v)]
  | SGroup names => lit "g" :: names
  | SSmooth n => [lit "s"; show_N n]
  | SUse material => [lit "usemtl"; material]
  | SPoint ks => lit "p" :: map numeral ks
  | SLine rs => lit "l" :: map show_ref rs
  | SFace rs => lit "f" :: map show_ref rs
  end.

(** An object without a name has no [o] line. *)
Definition object_lines (o : bytes * list statement) : list (list bytes) :=
  match fst o with
  | [] => []
  | name => [[lit "o"; name]]
  end ++ map statement_line (snd o).

Definition file_lines (f : obj_file) : list (list bytes) :=
  map (fun l => [lit "mtllib"; l]) (file_libraries f) ++ flat_map object_lines (file_objects f).

Definition write_file (f : obj_file) : bytes := unlines (map unwords (file_lines f)).

(** What can be written: names are [name]s (and libraries and groups are not
    newlines), and numbers are [f64]s and [usize]s.  Only the first object may
    have no name. *)
Definition statement_writable (name : bytes -> Prop) (s : statement) : Prop :=
  match s with
  | SVertex v => vertex_f64 v
  | STexture v => texture_f64 v
  | SNormal v => normal_f64 v
  | SGroup names => Forall (fun n => name n /\ n <> nl) names
  | SSmooth n => (n < 2 ^ 64)%N
  | SUse material => name material
  | _ => True
  end.

Definition names_writable (name : bytes -> Prop) (ns : list bytes) : Prop :=
  match ns with
  | [] => True
  | n :: ns' => (n = [] \/ name n) /\ Forall name ns'
  end.

Definition writable (name : bytes -> Prop) (f : obj_file) : Prop :=
  Forall (fun n => name n /\ n <> nl) (file_libraries f) /\
  names_writable name (map fst (file_objects f)) /\
  Forall (fun o => Forall (statement_writable name) (snd o)) (file_objects f).

(** * Which object sets there are *)

(** The groups of successive elements, of [n] groups in all: either the same as
    those of the element before, or some that come after the first [used] ones,
    or none (but not before there are any groups). *)
Inductive groups_from (n : nat) : nat -> option (list nat) -> list (list nat) -> Prop :=
| groups_end used active : groups_from n used active []
| groups_same used active gs : groups_from n used (Some active) gs -> groups_from n used (Some active) (active :: gs)
| groups_next used active first k gs : used <= first -> 0 < k -> first + k <= n ->
    groups_from n (first + k) (Some (seq first k)) gs -> groups_from n used active (seq first k :: gs)
| groups_none used active gs : 0 < n ->
    groups_from n (Nat.max 1 used) (Some []) gs -> groups_from n used active ([] :: gs).

(** Geometries: consecutive, and not empty except for the last.  Only the first
    can have no material, and then it is not empty. *)
Definition geometries_possible (n : nat) (gs : list geometry) : Prop :=
  concat (map shapes gs) = seq 0 n /\
  match gs with
  | [] => False
  | g :: gs' => Forall (fun g' => shapes g' <> []) (removelast gs) /\
                Forall (fun g' => material_name g' <> None) gs' /\
                (material_name g = None -> shapes g <> [])
  end.

Record object_possible (name : bytes -> Prop) (ob : object) : Prop := {
  possible_vertices : Forall vertex_f64 (vertex_set ob);
  possible_texture_vertices : Forall texture_f64 (texture_vertex_set ob);
  possible_normals : Forall normal_f64 (normal_vertex_set ob);
  possible_groups : Forall (fun n => name n /\ n <> nl) (group_set ob);
  possible_smoothing_groups : Forall (fun n => n < 2 ^ 64)%N (smoothing_group_set ob);
  possible_elements :
    Forall (element_in (length (vertex_set ob)) (length (texture_vertex_set ob)) (length (normal_vertex_set ob))) (element_set ob);
  possible_shapes : map se_element (shape_set ob) = seq 0 (length (element_set ob));
  possible_shape_groups : groups_from (length (group_set ob)) 0 None (map se_groups (shape_set ob));
  possible_shape_smoothing :
    Sorted le (map se_smoothing_group (shape_set ob)) /\
    Forall (fun k => k < length (smoothing_group_set ob)) (map se_smoothing_group (shape_set ob));
  possible_geometries : geometries_possible (length (element_set ob)) (geometry_set ob);
  possible_materials : forall g m, In g (geometry_set ob) -> material_name g = Some m -> name m
}.

Definition set_possible (name : bytes -> Prop) (set : object_set) : Prop :=
  Forall (fun n => name n /\ n <> nl) (material_libraries set) /\
  names_writable name (map ObjTypes.name (objects set)) /\
  Forall (object_possible name) (objects set).

(** * A writer for object sets *)

Definition global_ref (base : counts) (i : vtn_index) : reference :=
  let k base i := S (base + i) in
  match i with
  | V v => mkRef (k (n_v base) v) None None
  | VT v t => mkRef (k (n_v base) v) (Some (k (n_t base) t)) None
  | VN v n => mkRef (k (n_v base) v) None (Some (k (n_n base) n))
  | VTN v t n => mkRef (k (n_v base) v) (Some (k (n_t base) t)) (Some (k (n_n base) n))
  end.

Definition element_line (base : counts) (e : element) : statement :=
  match e with
  | Point a => SPoint [ref_v (global_ref base a)]
  | Line a b => SLine [global_ref base a; global_ref base b]
  | Face a b c => SFace [global_ref base a; global_ref base b; global_ref base c]
  end.

(** Either a [usemtl], or an element with its groups and its smoothing group. *)
Inductive item :=
| IUse (material : bytes)
| IElement (groups : list nat) (smoothing : nat) (e : element).

Definition slice {A} (l : list A) (from to : nat) : list A := firstn (to - from) (skipn from l).

Definition some_groups (names : list bytes) : list statement :=
  match names with [] => [] | _ => [SGroup names] end.

(** Whether the groups need not be changed. *)
Definition same_groups (active : option (list nat)) (groups : list nat) : bool :=
  match active with
  | Some active => if list_eq_dec Nat.eq_dec active groups then true else false
  | None => false
  end.

(** Statements that make [groups] active when [used] of the groups [names] have
    been declared, and how many have been then. *)
Definition switch_groups (names : list bytes) (used : nat) (active : option (list nat)) (groups : list nat)
  : list statement * nat :=
  if same_groups active groups then ([], used)
  else match groups with
       | [] => (some_groups (slice names used (Nat.max 1 used)) ++ [SGroup []], Nat.max 1 used)
       | first :: _ =>
           (some_groups (slice names used first) ++ [SGroup (slice names first (first + length groups))],
            first + length groups)
       end.

Fixpoint export (base : counts) (names : list bytes) (numbers : list N) (used : nat) (active : option (list nat))
  (sused : nat) (items : list item) : list statement :=
  match items with
  | [] => some_groups (skipn used names) ++ map SSmooth (skipn sused numbers)
  | IUse m :: items' => SUse m :: export base names numbers used active sused items'
  | IElement groups k e :: items' =>
      let '(gs, used') := switch_groups names used active groups in
      gs ++ map SSmooth (slice numbers sused (S k)) ++ element_line base e ::
      export base names numbers used' (Some groups) (S k) items'
  end.

Definition items_of (es : list element) (ses : list shape_entry) (gs : list geometry) : list item :=
  flat_map (fun g =>
    match material_name g with Some m => [IUse m] | None => [] end ++
    flat_map (fun i => match nth_error ses i, nth_error es i with
                       | Some se, Some e => [IElement (se_groups se) (se_smoothing_group se) e]
                       | _, _ => []
                       end) (shapes g)) gs.

Definition export_object (base : counts) (ob : object) : list statement :=
  map SVertex (vertex_set ob) ++ map STexture (texture_vertex_set ob) ++ map SNormal (normal_vertex_set ob) ++
  export base (group_set ob) (smoothing_group_set ob) 0 None 0 (items_of (element_set ob) (shape_set ob) (geometry_set ob)).

Definition add_counts (base : counts) (ob : object) : counts :=
  mkCounts (n_v base + length (vertex_set ob)) (n_t base + length (texture_vertex_set ob)) (n_n base + length (normal_vertex_set ob)).

Fixpoint export_objects (base : counts) (obs : list object) : list (bytes * list statement) :=
  match obs with
  | [] => []
  | ob :: obs' => (ObjTypes.name ob, export_object base ob) :: export_objects (add_counts base ob) obs'
  end.

(** The whole set as an OBJ text. *)
Definition write_set (set : object_set) : bytes :=
  write_file (mkObjFile (material_libraries set) (export_objects no_counts (objects set))).
