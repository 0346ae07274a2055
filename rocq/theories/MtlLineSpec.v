(** Lines of MTL texts. *)
From Verif Require Export MtlSpec.
Local Open Scope list_scope.

(** The names in a file of materials: of the materials and of their maps. *)
Definition setting_names (s : setting) : list bytes :=
  match s with SetMap _ n => [n] | _ => [] end.

Definition file_names (f : mtl_file) : list bytes :=
  flat_map (fun m => fst m :: flat_map setting_names (snd m)) f.

(** [cut_file f f']: [f'] is what is in front of a line end in [f]. *)
Inductive cut_file : mtl_file -> mtl_file -> Prop :=
| cut_none f : cut_file f []
| cut_in f1 name ss1 ss2 f2 : cut_file (f1 ++ (name, ss1 ++ ss2) :: f2) (f1 ++ [(name, ss1)]).
