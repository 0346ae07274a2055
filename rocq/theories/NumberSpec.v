(** How numbers are written: decimal integers and Rust's floating point
    grammar.  Independent of RustStd.v. *)
From Verif Require Export Bytes.
Local Open Scope char_scope.
Local Open Scope list_scope.

(** A decimal digit and its value. *)
Inductive digit : byte -> N -> Prop :=
| digit_0 : digit "0" 0
| digit_1 : digit "1" 1
| digit_2 : digit "2" 2
| digit_3 : digit "3" 3
| digit_4 : digit "4" 4
| digit_5 : digit "5" 5
| digit_6 : digit "6" 6
| digit_7 : digit "7" 7
| digit_8 : digit "8" 8
| digit_9 : digit "9" 9.

(** Digits and the number they stand for; no digits stand for 0. *)
Inductive digits : bytes -> N -> Prop :=
| digits_none : digits [] 0
| digits_more s n c d : digits s n -> digit c d -> digits (s ++ [c]) (10 * n + d).

(** * Integers *)

Definition unsigned_text (s : bytes) (n : N) : Prop :=
  exists ds, ds <> [] /\ digits ds n /\ (s = ds \/ s = "+" :: ds).

Definition negative_text (s : bytes) (n : N) : Prop :=
  exists ds, ds <> [] /\ digits ds n /\ s = "-" :: ds.

(** A token that is a [usize]: a number below [2^64], perhaps with a [+]. *)
Definition usize_text (s : bytes) (n : N) : Prop := unsigned_text s n /\ (n < 2 ^ 64)%N.

(** A token that is an [isize]: a number in [-2^63, 2^63), perhaps with a sign. *)
Definition isize_text (s : bytes) (z : Z) : Prop :=
  (- 2 ^ 63 <= z < 2 ^ 63)%Z /\
  exists n, (unsigned_text s n /\ z = Z.of_N n) \/ (negative_text s n /\ z = (- Z.of_N n)%Z).

(** * Floating point numbers *)

Inductive sign_text : bytes -> bool -> Prop :=
| sign_none : sign_text [] false
| sign_plus : sign_text ["+"] false
| sign_minus : sign_text ["-"] true.

(** [exponent_text s e]: nothing, or [e]/[E] with an integer. *)
Inductive exponent_text : bytes -> Z -> Prop :=
| exponent_none : exponent_text [] 0
| exponent_some c s neg ds n : c = "e" \/ c = "E" -> sign_text s neg -> ds <> [] -> digits ds n ->
    exponent_text (c :: s ++ ds) (if neg then - Z.of_N n else Z.of_N n).

(** [mantissa_text s m k]: digits, perhaps with a point; [k] of them are behind
    the point; the number they stand for is [m / 10^k]. *)
Inductive mantissa_text : bytes -> N -> nat -> Prop :=
| mantissa_integer ds m : ds <> [] -> digits ds m -> mantissa_text ds m 0
| mantissa_point a b m : a ++ b <> [] -> digits (a ++ b) m -> mantissa_text (a ++ "." :: b) m (List.length b).

(** A decimal number: [(-1)^neg * m * 10^(e-k)], [e] being the written exponent
    and [k] the number of digits behind the point. *)
Definition decimal_text (s : bytes) (neg : bool) (m : N) (k : nat) (e : Z) : Prop :=
  exists sg mt ex, s = sg ++ mt ++ ex /\ sign_text sg neg /\ mantissa_text mt m k /\ exponent_text ex e.

(** The same letters in upper or lower case. *)
Definition same_letter (a b : byte) : Prop :=
  a = b \/ exists i, (i < 26)%N /\
    ((a = ascii_of_N (65 + i) /\ b = ascii_of_N (97 + i)) \/ (a = ascii_of_N (97 + i) /\ b = ascii_of_N (65 + i))).

Definition infinity_text (s : bytes) (neg : bool) : Prop :=
  exists sg w, s = sg ++ w /\ sign_text sg neg /\
    (Forall2 same_letter w (lit "inf") \/ Forall2 same_letter w (lit "infinity")).

Definition nan_text (s : bytes) : Prop :=
  exists sg neg w, s = sg ++ w /\ sign_text sg neg /\ Forall2 same_letter w (lit "nan").
