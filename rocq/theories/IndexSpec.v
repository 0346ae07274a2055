(** The components of an index into an object, and of what it stands for. *)
From Verif Require Export ObjTypes.
Local Open Scope list_scope.

Definition index_vertex (i : vtn_index) : nat :=
  match i with V v => v | VT v _ => v | VN v _ => v | VTN v _ _ => v end.
Definition index_texture (i : vtn_index) : option nat :=
  match i with VT _ t => Some t | VTN _ t _ => Some t | _ => None end.
Definition index_normal (i : vtn_index) : option nat :=
  match i with VN _ n => Some n | VTN _ _ n => Some n | _ => None end.

Definition triple_vertex (t : vtn_triple) : vertex :=
  match t with TripleV v => v | TripleVT v _ => v | TripleVN v _ => v | TripleVTN v _ _ => v end.
Definition triple_texture (t : vtn_triple) : option texture_vertex :=
  match t with TripleVT _ t => Some t | TripleVTN _ t _ => Some t | _ => None end.
Definition triple_normal (t : vtn_triple) : option normal_vertex :=
  match t with TripleVN _ n => Some n | TripleVTN _ _ n => Some n | _ => None end.

(** The entry at a position, if there is to be one. *)
Definition entry {A} (l : list A) (i : option nat) (x : option A) : Prop :=
  match i, x with
  | None, None => True
  | Some i, Some x => nth_error l i = Some x
  | _, _ => False
  end.

Definition below {A} (l : list A) (i : option nat) : Prop := forall k, i = Some k -> k < List.length l.

Definition same_form (a b : vtn_index) : Prop :=
  (index_texture a = None <-> index_texture b = None) /\ (index_normal a = None <-> index_normal b = None).
