(** Hashing of error kinds: C80. *)
From Verif Require Import HashModel MtlModel ExampleText.
Local Open Scope list_scope.

(** * C80 *)

Lemma discriminants_differ : forall a b, mtl_kind_discriminant a = mtl_kind_discriminant b -> a = b.
Proof. intros [] []; cbn; intros E; (reflexivity || discriminate E). Qed.

(** Equal kinds, and only those, have the same hash for every hasher, from whatever
    state it is in. *)
Theorem C80_kind : forall a b, a = b <->
  (forall S (write_isize : S -> Z -> S) state, mtl_kind_hash write_isize a state = mtl_kind_hash write_isize b state).
Proof.
  intros a b. split; [now intros ->|]. intros H. specialize (H Z (fun _ z => z) 0%Z). apply discriminants_differ. now apply Nat2Z.inj.
Qed.
Print Assumptions C80_kind.

(** The same of sequences of kinds. *)
Theorem C80_kinds : forall a b, a = b <->
  (forall S (write_isize : S -> Z -> S) state, mtl_kinds_hash write_isize a state = mtl_kinds_hash write_isize b state).
Proof.
  intros a b. split; [now intros ->|]. intros H. specialize (H (list Z) (fun l z => l ++ [z]) []).
  assert (K : forall ks l, mtl_kinds_hash (fun l z => l ++ [z]) ks l = l ++ map (fun k => Z.of_nat (mtl_kind_discriminant k)) ks).
  { induction ks as [|k ks IH]; intros l; [now rewrite app_nil_r|]. cbn. unfold mtl_kinds_hash in IH. rewrite IH. unfold mtl_kind_hash. now rewrite <- app_assoc. }
  rewrite !K in H. cbn in H. revert b H. induction a as [|x a IH]; intros [|y b] H; try discriminate H; [reflexivity|].
  injection H as E H. f_equal; [|now apply IH]. apply discriminants_differ. now apply Nat2Z.inj.
Qed.
Print Assumptions C80_kinds.

(** A hash depends on nothing but what the hasher does with the discriminant: one
    whole number from 0 to 6, which is given to it once. *)
Theorem C80_once : forall k, exists d, (0 <= d <= 6)%Z /\
  forall S (write_isize : S -> Z -> S) state, mtl_kind_hash write_isize k state = write_isize state d.
Proof. intros k. exists (Z.of_nat (mtl_kind_discriminant k)). split; [destruct k; cbn; now split|reflexivity]. Qed.
Print Assumptions C80_once.

(** * Examples *)

Definition kind_of {A} (r : outcome (parse_error MtlTypes.error_kind) A) : option MtlTypes.error_kind :=
  match r with Err e => Some (err_kind e) | _ => None end.

(** The kinds of two errors of the parser, and their hashes. *)
Example C80_example : exists a b, kind_of (MtlModel.parse (text "newmtl a|Kd 1 x")) = Some a /\ kind_of (MtlModel.parse (text "newmtl a|illum x")) = Some b /\
  mtl_kind_hash (fun s z => 31 * s + z)%Z a 7%Z = 219%Z /\ mtl_kind_hash (fun s z => 31 * s + z)%Z b 7%Z = 220%Z.
Proof. eexists _, _. split; [vm_compute; reflexivity|]. split; [vm_compute; reflexivity|]. split; reflexivity. Qed.
