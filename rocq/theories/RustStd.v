(** The functions of the Rust standard library that the crate calls, modelled
    by their documented behaviour.  Nothing here is code of /repo; each
    definition says where /repo uses it.  [usize]/[isize] are 64-bit. *)
From Verif Require Export Bytes.
From Coq Require Import Floats.SpecFloat DecimalFacts DecimalN.
Local Open Scope char_scope.
Local Open Scope list_scope.

(** * Integers *)

(** A decimal digit and its value ([char::to_digit(10)]), for the two integer
    parsers below. *)
Definition digit_val (c : byte) : option N :=
  let n := N_of_ascii c in
  if ((48 <=? n) && (n <=? 57))%N then Some (n - 48)%N else None.

(** The value of a string of decimal digits, most significant first; [None] if
    some byte is not a digit. *)
Fixpoint digits_val (acc : N) (s : bytes) : option N :=
  match s with
  | [] => Some acc
  | c :: r => match digit_val c with
              | Some d => digits_val (10 * acc + d)%N r
              | None => None
              end
  end.

(** The bounds of [isize] and [usize] (obj.rs:781, 884, 913, 1002 and 1169,
    mtl.rs:368). *)
Definition isize_min : Z := (- 2 ^ 63)%Z.
Definition isize_max : Z := (2 ^ 63 - 1)%Z.
Definition usize_max : N := (2 ^ 64 - 1)%N.

(** A result that does not overflow (obj.rs:884 and 886). *)
Definition in_isize (z : Z) : bool := ((isize_min <=? z) && (z <=? isize_max))%Z.

(** Two's complement wrap-around to [isize] (release-build arithmetic,
    obj.rs:884 and 886). *)
Definition wrap_isize (z : Z) : Z := ((z + 2 ^ 63) mod 2 ^ 64 - 2 ^ 63)%Z.

(** [str::parse::<isize>] (obj.rs:781, 913, 1002): empty string, lone sign,
    non-digit, or value out of range are errors; a leading [+] is accepted. *)
Definition parse_isize (s : bytes) : option Z :=
  let value (negative : bool) (digits : bytes) : option Z :=
    match digits with
    | [] => None
    | _ => match digits_val 0 digits with
           | Some n => let z := if negative then (- Z.of_N n)%Z else Z.of_N n in
                       if in_isize z then Some z else None
           | None => None
           end
    end in
  match s with
  | [] => None
  | c :: r => if Ascii.eqb c "+" then value false r
              else if Ascii.eqb c "-" then value true r
              else value false s
  end.

(** [str::parse::<usize>] (obj.rs:1169, mtl.rs:368): as above, but [-] is not a
    sign. *)
Definition parse_usize (s : bytes) : option N :=
  let value (digits : bytes) : option N :=
    match digits with
    | [] => None
    | _ => match digits_val 0 digits with
           | Some n => if (n <=? usize_max)%N then Some n else None
           | None => None
           end
    end in
  match s with
  | [] => None
  | c :: r => if Ascii.eqb c "+" then value r else value s
  end.

(** [Display] of [usize] and [isize]: shortest decimal, [-] in front of
    negative numbers. *)
Fixpoint uint_bytes (d : Decimal.uint) : bytes :=
  match d with
  | Decimal.Nil => []
  | Decimal.D0 d => "0" :: uint_bytes d
  | Decimal.D1 d => "1" :: uint_bytes d
  | Decimal.D2 d => "2" :: uint_bytes d
  | Decimal.D3 d => "3" :: uint_bytes d
  | Decimal.D4 d => "4" :: uint_bytes d
  | Decimal.D5 d => "5" :: uint_bytes d
  | Decimal.D6 d => "6" :: uint_bytes d
  | Decimal.D7 d => "7" :: uint_bytes d
  | Decimal.D8 d => "8" :: uint_bytes d
  | Decimal.D9 d => "9" :: uint_bytes d
  end.

Definition show_N (n : N) : bytes := uint_bytes (N.to_uint n).
Definition show_nat (n : nat) : bytes := show_N (N.of_nat n).
Definition show_Z (z : Z) : bytes :=
  match z with
  | Zneg p => "-" :: show_N (Npos p)
  | _ => show_N (Z.to_N z)
  end.

(** * [str::split(c)] for an ASCII char (obj.rs:926): the pieces between the
    occurrences of [c]; always at least one piece. *)
Fixpoint split_on (c : byte) (s : bytes) : list bytes :=
  match s with
  | [] => [[]]
  | x :: r =>
      if Ascii.eqb x c then [] :: split_on c r
      else match split_on c r with
           | p :: ps => (x :: p) :: ps
           | [] => [[x]]
           end
  end.

(** * Floating point: [f64] is binary64 (precision 53, emax 1024). *)

Definition f64 := spec_float.
Definition prec64 : Z := 53.
Definition emax64 : Z := 1024.

Definition f64_zero : f64 := S754_zero false.                          (* 0_f64 *)
Definition f64_one : f64 := S754_finite false 4503599627370496 (-52).  (* 1_f64 *)

(** The binary64 number nearest to [(-1)^neg * m * 10^e] (ties to even,
    overflow to infinity).  FloatProofs.v proves this against the reals. *)
Definition decimal_to_f64 (neg : bool) (m : N) (e : Z) : f64 :=
  match m with
  | N0 => S754_zero neg
  | Npos p =>
      let num := (Zpos p * 10 ^ (Z.max e 0))%Z in
      let den := (10 ^ (Z.max (- e) 0))%Z in
      let '(q, ex, l) := SFdiv_core_binary prec64 emax64 num 0 den 0 in
      binary_round_aux prec64 emax64 neg q ex l
  end.

Definition ascii_lower (c : byte) : byte :=
  let n := N_of_ascii c in
  if ((65 <=? n) && (n <=? 90))%N then ascii_of_N (n + 32) else c.

(** The longest prefix of digits, and the rest. *)
Fixpoint span_digits (s : bytes) : bytes * bytes :=
  match s with
  | c :: r => match digit_val c with
              | Some _ => let '(d, t) := span_digits r in (c :: d, t)
              | None => ([], s)
              end
  | [] => ([], [])
  end.

Definition digits_N (s : bytes) : N :=
  match digits_val 0 s with Some n => n | None => 0%N end.

(** Exponent digits, saturating as core::num::dec2flt's [parse_scientific] does:
    a digit is ignored once the exponent has reached 0x10000. *)
Fixpoint exp_val (acc : Z) (s : bytes) : Z :=
  match s with
  | [] => acc
  | c :: r =>
      match digit_val c with
      | Some d => exp_val (if (acc <? 65536)%Z then (10 * acc + Z.of_N d)%Z else acc) r
      | None => acc
      end
  end.

(** [Exp?] followed by the end of the string: [Some] exponent or failure. *)
Definition parse_exponent (s : bytes) : option Z :=
  match s with
  | [] => Some 0%Z
  | c :: r =>
      if Ascii.eqb (ascii_lower c) "e" then
        let '(neg, ds) := match r with
                          | c' :: r' => if Ascii.eqb c' "-" then (true, r')
                                        else if Ascii.eqb c' "+" then (false, r')
                                        else (false, r)
                          | [] => (false, [])
                          end in
        match span_digits ds with
        | (_ :: _, []) => Some (if neg then (- exp_val 0 ds)%Z else exp_val 0 ds)
        | _ => None
        end
      else None
  end.

(** An unsigned decimal number [Digit* [. Digit*] Exp?] with at least one digit
    in the mantissa: mantissa and power of ten. *)
Definition parse_decimal (s : bytes) : option (N * Z) :=
  let '(int_part, rest) := span_digits s in
  let '(frac_part, rest') :=
    match rest with
    | c :: r => if Ascii.eqb c "." then span_digits r else ([], rest)
    | [] => ([], [])
    end in
  match (int_part ++ frac_part)%list with
  | [] => None
  | ds => match parse_exponent rest' with
          | Some e => Some (digits_N ds, (e - Z.of_nat (List.length frac_part))%Z)
          | None => None
          end
  end.

(** [str::parse::<f64>] (obj.rs:769, 815, 831, 833; mtl.rs:356): optional sign,
    then a decimal number, or inf / infinity / nan in any case. *)
Definition parse_f64 (s : bytes) : option f64 :=
  let '(neg, body) := match s with
                      | c :: r => if Ascii.eqb c "-" then (true, r)
                                  else if Ascii.eqb c "+" then (false, r)
                                  else (false, s)
                      | [] => (false, [])
                      end in
  match parse_decimal body with
  | Some (m, e) => Some (decimal_to_f64 neg m e)
  | None =>
      let low := map ascii_lower body in
      if bytes_eqb low (lit "inf") || bytes_eqb low (lit "infinity") then Some (S754_infinity neg)
      else if bytes_eqb low (lit "nan") then Some S754_nan
      else None
  end.
