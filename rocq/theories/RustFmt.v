(** [Display] of [f64] ([core::fmt::float], without precision), modelled by its
    documented behaviour: the shortest decimal number that reads back as the same
    [f64], the nearest one of these, written without an exponent.  Nothing here is
    code of /repo (which uses it at obj.rs:134, 152, 170). *)
From Verif Require Export RustStd.
From Coq Require Import Floats.SpecFloat.
Local Open Scope char_scope.
Local Open Scope list_scope.

Definition f64_eqb (x y : f64) : bool :=
  match x, y with
  | S754_zero s, S754_zero s' => Bool.eqb s s'
  | S754_infinity s, S754_infinity s' => Bool.eqb s s'
  | S754_nan, S754_nan => true
  | S754_finite s m e, S754_finite s' m' e' => Bool.eqb s s' && Pos.eqb m m' && Z.eqb e e'
  | _, _ => false
  end.

(** [d * 10^j] without zeros at the end of [d]. *)
Fixpoint strip_zeros (fuel : nat) (d : N) (j : Z) : N * Z :=
  match fuel with
  | 0 => (d, j)
  | S fuel' =>
      if (d =? 0)%N then (d, j)
      else if (d mod 10 =? 0)%N then strip_zeros fuel' (d / 10) (j + 1) else (d, j)
  end.

(** The least [p >= p0] with [num / den < 10^p]. *)
Fixpoint magnitude (fuel : nat) (num den p : Z) : Z :=
  match fuel with
  | 0 => p
  | S fuel' =>
      if (num * 10 ^ Z.max (- p) 0 <? den * 10 ^ Z.max p 0)%Z then p
      else magnitude fuel' num den (p + 1)
  end.

(** [d * 10^j] if it reads back as [x]. *)
Definition reads_back (x : f64) (c : N * Z) : option (N * Z) :=
  let '(d, j) := c in
  if f64_eqb (decimal_to_f64 false d j) x then Some (d, j) else None.

(** The nearest decimal number with [k], or if necessary more digits that reads
    back as [x = num / den]; [p] is the number of digits in front of the point. *)
Fixpoint shortest (fuel : nat) (k : Z) (x : f64) (num den p : Z) : option (N * Z) :=
  match fuel with
  | 0 => None
  | S fuel' =>
      let j := (p - k)%Z in
      let a := (num * 10 ^ Z.max (- j) 0)%Z in
      let b := (den * 10 ^ Z.max j 0)%Z in
      let d := (a / b)%Z in
      let down := reads_back x (strip_zeros 20 (Z.to_N d) j) in
      let up := reads_back x (strip_zeros 20 (Z.to_N (d + 1)) j) in
      match down, up with
      | Some r, None => Some r
      | None, Some r => Some r
      | Some r, Some r' => if (2 * (a - d * b) <? b)%Z then Some r else Some r'
      | None, None => shortest fuel' (k + 1) x num den p
      end
  end.

(** All digits of [m * 2^e]. *)
Definition exact_decimal (m : positive) (e : Z) : N * Z :=
  if (0 <=? e)%Z then (Z.to_N (Zpos m * 2 ^ e), 0%Z) else (Z.to_N (Zpos m * 5 ^ (- e)), e).

Definition decimal_of (m : positive) (e : Z) : N * Z :=
  let num := (Zpos m * 2 ^ Z.max e 0)%Z in
  let den := (2 ^ Z.max (- e) 0)%Z in
  let p := magnitude 10 num den ((Z.pos (digits2_pos m) + e - 1) * 30103 / 100000 - 1) in
  match shortest 17 1 (S754_finite false m e) num den p with
  | Some r => r
  | None => exact_decimal m e
  end.

(** [d * 10^j] as a number without exponent. *)
Definition write_decimal (d : N) (j : Z) : bytes :=
  let s := show_N d in
  let k := Z.to_nat (- j) in
  if (0 <=? j)%Z then s ++ repeat "0" (Z.to_nat j)
  else if Nat.ltb k (List.length s) then firstn (List.length s - k) s ++ "." :: skipn (List.length s - k) s
  else "0" :: "." :: repeat "0" (k - List.length s) ++ s.

Definition show_f64 (x : f64) : bytes :=
  match x with
  | S754_nan => lit "NaN"
  | S754_infinity s => (if s then lit "-" else []) ++ lit "inf"
  | S754_zero s => (if s then lit "-" else []) ++ lit "0"
  | S754_finite s m e => (if s then lit "-" else []) ++ (let '(d, j) := decimal_of m e in write_decimal d j)
  end.
