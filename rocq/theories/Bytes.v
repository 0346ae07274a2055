(** Byte strings.  A Rust [&str]/[&[u8]]/[String] is modelled as a list of
    bytes, a byte being Coq's [ascii] (eight bits).  No source lines: this is
    the data representation shared by every other file. *)
From Coq Require Export Ascii String Bool Arith NArith ZArith Lia List.
Export ListNotations.

Definition byte := ascii.
Definition bytes := list ascii.

(** A string literal of the Rust source. *)
Definition lit (s : string) : bytes := list_ascii_of_string s.

(** Equality of byte strings ([==] on [&str]). *)
Fixpoint bytes_eqb (a b : bytes) : bool :=
  match a, b with
  | [], [] => true
  | x :: a', y :: b' => Ascii.eqb x y && bytes_eqb a' b'
  | _, _ => false
  end.

(** The one-byte strings "\n" and "\r". *)
Definition LF : ascii := "010"%char.
Definition CR : ascii := "013"%char.
Definition TAB : ascii := "009"%char.
Definition nl : bytes := [LF].

Lemma bytes_eqb_spec : forall a b, reflect (a = b) (bytes_eqb a b).
Proof.
  induction a as [|x a IH]; intros [|y b]; cbn [bytes_eqb]; try (constructor; congruence).
  destruct (Ascii.eqb_spec x y) as [->|Hxy]; cbn [andb].
  - destruct (IH b) as [->|Hab]; constructor; congruence.
  - constructor; congruence.
Qed.

Lemma bytes_eqb_refl : forall a, bytes_eqb a a = true.
Proof. intro a; destruct (bytes_eqb_spec a a); congruence. Qed.

Lemma bytes_eqb_eq : forall a b, bytes_eqb a b = true <-> a = b.
Proof. intros a b; destruct (bytes_eqb_spec a b); split; congruence. Qed.

Lemma bytes_eqb_neq : forall a b, bytes_eqb a b = false <-> a <> b.
Proof. intros a b; destruct (bytes_eqb_spec a b); split; congruence. Qed.

Definition bytes_eq_dec : forall a b : bytes, {a = b} + {a <> b} := list_eq_dec ascii_dec.
