(** Model of the derived [Hash] of src/mtl.rs.

    A [Hasher] is a state and what it does with the values it is given; [derive(Hash)]
    on an [enum] without fields gives it the discriminant, an [isize], and nothing
    else. *)
From Coq Require Export ZArith List.
From Verif Require Export OrdModel.

(** mtl.rs:218, derived [Hash] of [ErrorKind]; [write_isize] is the method of that
    name of the hasher. *)
Definition mtl_kind_hash {S} (write_isize : S -> Z -> S) (k : MtlTypes.error_kind) (state : S) : S :=
  write_isize state (Z.of_nat (mtl_kind_discriminant k)).

(** [Hash::hash_slice], the default method: the kinds one after the other. *)
Definition mtl_kinds_hash {S} (write_isize : S -> Z -> S) (ks : list MtlTypes.error_kind) (state : S) : S :=
  fold_left (fun s k => mtl_kind_hash write_isize k s) ks state.
