(** Ways of looking at a file and at a parsed object, for stating properties.
    Independent of the model. *)
From Verif Require Export ObjSpec.
Local Open Scope list_scope.

(** * The reading of a text *)

(** The text [input] says [f]. *)
Definition says (input : bytes) (f : obj_file) : Prop :=
  exists ts, tokenizes input ts /\ reads_file ts f [].

(** * Well-formed statements *)

(** What a statement of an object may refer to, and how many references it must
    have. *)
Definition proper (base now : counts) (s : statement) : Prop :=
  match s with
  | SPoint ks => ks <> [] /\ Forall (in_scope (n_v base) (n_v now)) ks
  | SLine rs => 2 <= length rs /\ same_form rs /\ Forall (ref_in_scope base now) rs
  | SFace rs => 3 <= length rs /\ same_form rs /\ Forall (ref_in_scope base now) rs
  | _ => True
  end.

Fixpoint proper_body (base now : counts) (ss : list statement) : Prop :=
  match ss with
  | [] => True
  | s :: ss' => proper base now s /\ proper_body base (count now s) ss'
  end.

Fixpoint proper_objects (now : counts) (os : list (bytes * list statement)) : Prop :=
  match os with
  | [] => True
  | (_, ss) :: os' => proper_body now now ss /\ proper_objects (count_all now ss) os'
  end.

(** How much is declared in the objects in front of number [i]. *)
Definition base_of (f : obj_file) (i : nat) : counts :=
  mkCounts (length (flat_map (fun o => all_vertices (snd o)) (firstn i (file_objects f))))
           (length (flat_map (fun o => all_texture_vertices (snd o)) (firstn i (file_objects f))))
           (length (flat_map (fun o => all_normals (snd o)) (firstn i (file_objects f)))).

(** * Elements as written *)

Inductive drawn (A : Type) : Type :=
| DPoint (a : A)
| DLine (a b : A)
| DFace (a b c : A).
Arguments DPoint {A}.
Arguments DLine {A}.
Arguments DFace {A}.

Definition draw_map {A B} (f : A -> B) (d : drawn A) : drawn B :=
  match d with
  | DPoint a => DPoint (f a)
  | DLine a b => DLine (f a) (f b)
  | DFace a b c => DFace (f a) (f b) (f c)
  end.

Definition draw_element (e : element) : drawn vtn_index :=
  match e with
  | Point a => DPoint a
  | Line a b => DLine a b
  | Face a b c => DFace a b c
  end.

Definition corners {A} (d : drawn A) : list A :=
  match d with
  | DPoint a => [a]
  | DLine a b => [a; b]
  | DFace a b c => [a; b; c]
  end.

(** Which optional parts an index has. *)
Definition index_form (i : vtn_index) : bool * bool :=
  match i with
  | V _ => (false, false)
  | VT _ _ => (true, false)
  | VN _ _ => (false, true)
  | VTN _ _ _ => (true, true)
  end.

(** The [i]-th reference of a statement. *)
Definition nth_ref (rs : list reference) (i : nat) : reference := nth i rs (mkRef 0 None None).

(** The elements written by a statement: [n] points, the [n - 1] segments of a
    polyline, the [n - 2] triangles of a fan. *)
Definition written (s : statement) : list (drawn reference) :=
  match s with
  | SPoint ks => map (fun k => DPoint (mkRef k None None)) ks
  | SLine rs => map (fun i => DLine (nth_ref rs i) (nth_ref rs (i + 1))) (seq 0 (length rs - 1))
  | SFace rs =>
      map (fun i => DFace (nth_ref rs 0) (nth_ref rs (i + 1)) (nth_ref rs (i + 2)))
          (seq 0 (length rs - 2))
  | _ => []
  end.

(** * The numbering of the whole file *)

Definition file_vertices (f : obj_file) : list vertex :=
  flat_map (fun o => all_vertices (snd o)) (file_objects f).
Definition file_texture_vertices (f : obj_file) : list texture_vertex :=
  flat_map (fun o => all_texture_vertices (snd o)) (file_objects f).
Definition file_normals (f : obj_file) : list normal_vertex :=
  flat_map (fun o => all_normals (snd o)) (file_objects f).

(** Number [k], counted from 1. *)
Definition number {A} (l : list A) (k : nat) : option A :=
  match k with
  | 0 => None
  | S i => nth_error l i
  end.

(** What a reference means in the file. *)
Definition lookup (f : obj_file) (r : reference) : option vtn_triple :=
  match number (file_vertices f) (ref_v r) with
  | None => None
  | Some v =>
      match ref_t r, ref_n r with
      | None, None => Some (TripleV v)
      | Some t, None => option_map (TripleVT v) (number (file_texture_vertices f) t)
      | None, Some n => option_map (TripleVN v) (number (file_normals f) n)
      | Some t, Some n =>
          match number (file_texture_vertices f) t, number (file_normals f) n with
          | Some vt, Some vn => Some (TripleVTN v vt vn)
          | _, _ => None
          end
      end
  end.

(** * What is active after some statements of an object *)

(** The names of the last [g] statement, and ["default"] if there is none.  An
    element makes the default group active; before that, a [g] without names
    does nothing. *)
Definition activate_groups (active : option (list bytes)) (s : statement) : option (list bytes) :=
  match s, active with
  | SGroup [], None => None
  | SGroup names, _ => Some names
  | (SPoint _ | SLine _ | SFace _), None => Some [lit "default"]
  | _, _ => active
  end.

Definition active_groups (before : list statement) : list bytes :=
  match fold_left activate_groups before None with
  | Some names => names
  | None => [lit "default"]
  end.

(** The number of the last [s] statement, 0 if there is none. *)
Definition active_smoothing (before : list statement) : N :=
  fold_left (fun active s => match s with SSmooth n => n | _ => active end) before 0%N.

(** The name of the last [usemtl], if there is one. *)
Definition active_material (before : list statement) : option bytes :=
  fold_left (fun active s => match s with SUse m => Some m | _ => active end) before None.

(** The names and numbers declared, in order. *)
Definition declared_names (ss : list statement) : list bytes := flat_map names_of ss.
Definition declared_smoothing (ss : list statement) : list N := flat_map smoothing_of ss.

(** The elements of [ss] that come in front of position [j]: [element_at ss j
    before s] says that element number [j] (from 0) is written by the statement
    [s], which comes after the statements [before]. *)
Definition element_at (ss : list statement) (j : nat) (before : list statement) (s : statement) : Prop :=
  exists after, ss = before ++ s :: after /\
    length (flat_map written before) <= j < length (flat_map written before) + length (written s).

(** The next token if it is a number, the default otherwise. *)
Definition next_number (default : f64) (ts : list bytes) (x : f64) : Prop :=
  match ts with
  | t :: _ => match RustStd.parse_f64 t with Some y => x = y | None => x = default end
  | [] => x = default
  end.
