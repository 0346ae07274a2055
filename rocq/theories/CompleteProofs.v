(** The outcomes that [CompleteSpec] names are those of the parsers. *)
From Verif Require Import ObjModel ObjErrorSpec ObjView CompleteSpec LexerProofs TotalProofs ObjTop ObjReach ObjUnique ObjFacts ObjMore ObjProps.
From Verif Require MtlTypes MtlModel MtlSpec MtlTop MtlFacts.
Local Open Scope list_scope.

Lemma not_overflowing : forall input, ~ overflowing input <-> forall ts, tokenizes input ts -> ~ overflows_file ts.
Proof.
  intros input. split.
  - intros H ts Ht Ho. apply H. now exists ts.
  - intros H (ts & Ht & Ho). exact (H ts Ht Ho).
Qed.

Theorem obj_gives_iff : forall dbg input r, fits input -> parse dbg input = r <-> obj_gives dbg input r.
Proof.
  intros dbg input r Hf. destruct dbg; destruct r as [set|e|[]|]; cbn [obj_gives].
  - rewrite debug_ok_iff by exact Hf. rewrite not_overflowing. intuition.
  - rewrite debug_err_iff by exact Hf. rewrite not_overflowing. intuition.
  - rewrite debug_panic_iff by exact Hf. rewrite not_overflowing. intuition discriminate.
  - rewrite debug_overflow_iff by exact Hf. unfold overflowing. intuition.
  - split; [intros E; exact (no_assert _ _ Hf E)|intros []].
  - split; [|intros []]. intros E. pose proof (proj2 (tokenizes_iff input _) eq_refl) as Ht. exact (proj2 (obj_terminates true input _ _ Ht (Nat.lt_succ_diag_r _)) E).
  - rewrite parse_says_iff by exact Hf. intuition discriminate.
  - rewrite error_iff by exact Hf. intuition discriminate.
  - rewrite panic_place by exact Hf. intuition discriminate.
  - rewrite panic_place by exact Hf. intuition discriminate.
  - rewrite panic_place by exact Hf. intuition discriminate.
  - split; [|intros []]. intros E. pose proof (proj2 (tokenizes_iff input _) eq_refl) as Ht. exact (proj2 (obj_terminates false input _ _ Ht (Nat.lt_succ_diag_r _)) E).
Qed.

Theorem mtl_gives_iff : forall input r, MtlModel.parse input = r <-> mtl_gives input r.
Proof.
  intros input r. pose proof (proj2 (tokenizes_iff input _) eq_refl) as Ht.
  pose proof (proj2 (mtl_terminates input _ _ Ht (Nat.lt_succ_diag_r _))) as K.
  destruct r as [set|e|x|]; cbn [mtl_gives].
  - apply MtlTop.parse_ok_iff.
  - apply MtlFacts.error_iff.
  - split; [|intros []]. intros E. rewrite E in K. destruct K as [[? K]|[? K]]; discriminate K.
  - split; [|intros []]. intros E. rewrite E in K. destruct K as [[? K]|[? K]]; discriminate K.
Qed.
