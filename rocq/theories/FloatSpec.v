(** Binary64 numbers as real numbers, and what the nearest one is. *)
From Coq Require Export Reals Floats.SpecFloat.
From Verif Require Export RustStd NumberSpec.
Local Open Scope R_scope.

(** The binary64 numbers: mantissas of at most 53 bits in normal form. *)
Definition is_f64 (x : f64) : Prop := valid_binary 53 1024 x = true.

Definition finite (x : f64) : Prop :=
  match x with S754_zero _ | S754_finite _ _ _ => True | S754_infinity _ | S754_nan => False end.

Definition signed (neg : bool) (r : R) : R := if neg then - r else r.

(** The number that a finite [x] stands for. *)
Definition value (x : f64) : R :=
  match x with S754_finite neg m e => signed neg (IZR (Zpos m) * powerRZ 2 e) | _ => 0 end.

(** The bit that holds the sign. *)
Definition sign_of (x : f64) : bool :=
  match x with S754_zero s | S754_infinity s | S754_finite s _ _ => s | S754_nan => false end.

Definition even_mantissa (x : f64) : Prop :=
  match x with S754_finite _ m _ => Z.even (Zpos m) = true | _ => True end.

(** Halfway between the largest binary64 number, [2^1024 - 2^971], and [2^1024]. *)
Definition overflow_bound : R := powerRZ 2 1024 - powerRZ 2 970.

(** [x] is the binary64 number nearest to [r], the even one of two; numbers too
    large become infinite.  [neg] is the sign written. *)
Definition nearest (neg : bool) (r : R) (x : f64) : Prop :=
  is_f64 x /\ sign_of x = neg /\
  (Rabs r < overflow_bound -> finite x /\
     (forall y, is_f64 y -> finite y -> Rabs (value x - r) <= Rabs (value y - r)) /\
     (forall y, is_f64 y -> finite y -> Rabs (value x - r) = Rabs (value y - r) -> value y <> value x -> even_mantissa x)) /\
  (overflow_bound <= Rabs r -> x = S754_infinity neg).

(** [(-1)^neg * m * 10^e] *)
Definition decimal (neg : bool) (m : N) (e : Z) : R := signed neg (IZR (Z.of_N m) * powerRZ 10 e).
