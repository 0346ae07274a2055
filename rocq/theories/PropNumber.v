(** Properties of numbers and indices: C11, C36, C37, C38.

    NumberSpec.v says how numbers are written, FloatSpec.v what the nearest
    [f64] is, IndexSpec.v what an index consists of. *)
From Coq Require Import Reals Floats.SpecFloat.
From Verif Require Import ObjModel IndexSpec RustFmt FloatSpec NumberProofs FloatProofs FmtProofs NumberFacts.
Local Open Scope char_scope.
Local Open Scope list_scope.

(** * C11 *)

(** The tokens that are numbers. *)
Theorem C11_accepted_iff : forall s, (exists x, parse_f64 s = Some x) <->
  (exists neg m k e, decimal_text s neg m k e) \/ (exists neg, infinity_text s neg) \/ nan_text s.
Proof. exact accepted_iff. Qed.
Print Assumptions C11_accepted_iff.

(** A decimal number is read as the nearest [f64], ties to even, if its exponent
    is below 65536 or it has at most 60000 bytes. *)
Theorem C11_nearest : forall s neg m k e, decimal_text s neg m k e ->
  (Z.of_nat (List.length s) <= 60000)%Z \/ (-65536 < e < 65536)%Z ->
  exists x, parse_f64 s = Some x /\ nearest neg (decimal neg m (e - Z.of_nat k)) x.
Proof. exact decimal_text_nearest. Qed.
Print Assumptions C11_nearest.

(** Without this condition it need not be: Rust's standard library ignores the
    digits of an exponent that has reached 65536. *)
Theorem C11_long_exponent_refuted : exists s neg m k e x,
  decimal_text s neg m k e /\ parse_f64 s = Some x /\ ~ nearest neg (decimal neg m (e - Z.of_nat k)) x.
Proof. exact long_exponent. Qed.
Print Assumptions C11_long_exponent_refuted.

Theorem C11_infinity : forall s neg, infinity_text s neg -> parse_f64 s = Some (S754_infinity neg).
Proof. exact infinity_parsed. Qed.
Print Assumptions C11_infinity.

Theorem C11_nan : forall s, nan_text s -> parse_f64 s = Some S754_nan.
Proof. exact nan_parsed. Qed.
Print Assumptions C11_nan.

(** There is at most one nearest [f64] for each number, so [nearest] says exactly
    what is read. *)
Theorem C11_nearest_unique : forall neg r x y, nearest neg r x -> nearest neg r y -> x = y.
Proof. exact nearest_unique. Qed.
Print Assumptions C11_nearest_unique.

(** Every [f64] can be written. *)
Theorem C11_every_f64 : forall x, is_f64 x -> exists s, parse_f64 s = Some x.
Proof. intros x H. exists (show_f64 x). exact (show_f64_read x H). Qed.
Print Assumptions C11_every_f64.

Example C11_decimal_example : decimal_text (lit "-12.5e-1") true 125 1 (-1).
Proof.
  exists (lit "-"), (lit "12" ++ "." :: lit "5"), (lit "e-1"). repeat split; [constructor| |].
  - apply (mantissa_point (lit "12") (lit "5")); [discriminate|]. now apply digits_val_digits.
  - apply (exponent_some "e" (lit "-") true (lit "1") 1); [auto|constructor|discriminate|]. now apply digits_val_digits.
Qed.

Example C11_values :
  parse_f64 (lit "-12.5e-1") = Some (S754_finite true 5629499534213120 (-52)) /\
  parse_f64 (lit "0.1") = Some (S754_finite false 7205759403792794 (-56)) /\
  parse_f64 (lit ".5") = parse_f64 (lit "5.e-1") /\
  parse_f64 (lit "9007199254740993") = Some (S754_finite false 4503599627370496 1) /\
  parse_f64 (lit "9007199254740995") = Some (S754_finite false 4503599627370498 1) /\
  parse_f64 (lit "1e400") = Some (S754_infinity false) /\
  parse_f64 (lit "-1e-400") = Some (S754_zero true) /\
  parse_f64 (lit "5e-324") = Some (S754_finite false 1 (-1074)) /\
  parse_f64 (lit "-Infinity") = Some (S754_infinity true) /\
  parse_f64 (lit "NaN") = Some S754_nan /\
  parse_f64 (lit ".") = None /\ parse_f64 (lit "1e") = None /\ parse_f64 (lit "0x10") = None /\
  parse_f64 (lit "1_000") = None /\ parse_f64 (lit "1f") = None.
Proof. vm_compute. repeat split. Qed.

(** * C38 *)

Theorem C38_isize : forall s z, parse_isize s = Some z <-> isize_text s z.
Proof. exact parse_isize_iff. Qed.
Print Assumptions C38_isize.

Theorem C38_usize : forall s n, parse_usize s = Some n <-> usize_text s n.
Proof. exact parse_usize_iff. Qed.
Print Assumptions C38_usize.

Example C38_examples :
  parse_isize (lit "-9223372036854775808") = Some (- 2 ^ 63)%Z /\
  parse_isize (lit "9223372036854775808") = None /\
  parse_isize (lit "+007") = Some 7%Z /\ parse_isize (lit "-") = None /\ parse_isize (lit "1.0") = None /\
  parse_usize (lit "18446744073709551615") = Some (2 ^ 64 - 1)%N /\
  parse_usize (lit "18446744073709551616") = None /\
  parse_usize (lit "+1") = Some 1%N /\ parse_usize (lit "-0") = None /\ parse_usize [] = None.
Proof. vm_compute. repeat split. Qed.

(** * C36 *)

Theorem C36_found_iff : forall ob i t, get_vtn_triple ob i = Some t <->
  nth_error (vertex_set ob) (index_vertex i) = Some (triple_vertex t) /\
  entry (texture_vertex_set ob) (index_texture i) (triple_texture t) /\
  entry (normal_vertex_set ob) (index_normal i) (triple_normal t).
Proof. exact get_some. Qed.
Print Assumptions C36_found_iff.

Theorem C36_in_range_iff : forall ob i, get_vtn_triple ob i <> None <->
  index_vertex i < List.length (vertex_set ob) /\ below (texture_vertex_set ob) (index_texture i) /\
  below (normal_vertex_set ob) (index_normal i).
Proof. exact get_none. Qed.
Print Assumptions C36_in_range_iff.

Definition two_vertices : object :=
  mkObject [] [mkVertex f64_zero f64_zero f64_zero f64_one; mkVertex f64_one f64_zero f64_zero f64_one]
    [] [mkNormalVertex f64_zero f64_zero f64_one] [] [] [] [] [].

Example C36_examples :
  get_vtn_triple two_vertices (VN 1 0) =
    Some (TripleVN (mkVertex f64_one f64_zero f64_zero f64_one) (mkNormalVertex f64_zero f64_zero f64_one)) /\
  get_vtn_triple two_vertices (V 2) = None /\
  get_vtn_triple two_vertices (VT 1 0) = None /\
  get_vtn_triple two_vertices (VTN 0 0 0) = None.
Proof. vm_compute. repeat split. Qed.

(** * C37 *)

Theorem C37_same_form : forall a b, has_same_type_as a b = true <-> same_form a b.
Proof. exact same_type. Qed.
Print Assumptions C37_same_form.

Theorem C37_equivalence :
  (forall a, has_same_type_as a a = true) /\
  (forall a b, has_same_type_as a b = has_same_type_as b a) /\
  (forall a b c, has_same_type_as a b = true -> has_same_type_as b c = true -> has_same_type_as a c = true).
Proof. exact same_type_equivalence. Qed.
Print Assumptions C37_equivalence.

Example C37_examples :
  has_same_type_as (VT 1 2) (VT 3 4) = true /\ has_same_type_as (VT 1 2) (VN 1 2) = false /\
  has_same_type_as (V 1) (VTN 1 1 1) = false.
Proof. repeat split. Qed.
