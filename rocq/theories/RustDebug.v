(** The texts of [{:?}] in the Rust standard library, modelled by their documented
    behaviour: [Debug] of [f64], [usize], [str], [Vec], [Option], [Result], and
    what [#[derive(Debug)]] writes for structs and enums.  Nothing here is code of
    /repo, which derives [Debug] (obj.rs:119-627, mtl.rs:76-239).  [{:#?}] is in
    PrettyModel.v. *)
From Verif Require Export RustFmt.
From Coq Require Import Floats.SpecFloat HexadecimalFacts HexadecimalN.
Local Open Scope char_scope.
Local Open Scope list_scope.

(** What differs between versions of the standard library: which characters
    beyond ASCII are shown as they are (the Unicode tables of
    [core::unicode::printable] and of grapheme extenders), and which numbers are
    written with an exponent.  Theorems are about any choice. *)
Record choices := mkChoices { shown : N -> bool; exponent : f64 -> bool }.

(** Rust 1.58 and later write an exponent from [1e16] and below [1e-4]
    ([float_to_general_debug]), earlier versions never. *)
Definition magnitude_of (x : f64) : f64 := SFabs x.
Definition f64_1e16 : f64 := decimal_to_f64 false 1 16.
Definition f64_1em4 : f64 := decimal_to_f64 false 1 (-4).
Definition new_exponent (x : f64) : bool :=
  SFleb f64_1e16 (magnitude_of x) || SFltb (magnitude_of x) f64_1em4.
Definition old_exponent (x : f64) : bool := false.

(** * Numbers *)

(** [d * 10^j] with at least one digit behind the point. *)
Definition write_pointed (d : N) (j : Z) : bytes :=
  if (0 <=? j)%Z then write_decimal d j ++ lit ".0" else write_decimal d j.

(** [d * 10^j] as [a.bcde-7]. *)
Definition write_exponent (d : N) (j : Z) : bytes :=
  match show_N d with
  | c :: r => c :: match r with [] => [] | _ => "." :: r end ++ "e" :: show_Z (j + Z.of_nat (List.length r))
  | [] => []
  end.

Definition debug_f64 (ch : choices) (x : f64) : bytes :=
  match x with
  | S754_nan => lit "NaN"
  | S754_infinity s => (if s then lit "-" else []) ++ lit "inf"
  | S754_zero s => (if s then lit "-" else []) ++ lit "0.0"
  | S754_finite s m e => (if s then lit "-" else []) ++
      (let '(d, j) := decimal_of m e in if exponent ch x then write_exponent d j else write_pointed d j)
  end.

(** [usize], as with [{}]. *)
Definition debug_N : N -> bytes := show_N.
Definition debug_nat : nat -> bytes := show_nat.

(** * Strings *)

(** A string is written character by character.  The bytes of a character: one
    byte and the continuation bytes 10xxxxxx behind it. *)
Definition continuation (c : byte) : bool := let n := N_of_ascii c in ((128 <=? n) && (n <? 192))%N.

Definition continues (r : bytes) : bool := match r with d :: _ => continuation d | [] => false end.

Fixpoint characters (s : bytes) : list bytes :=
  match s with
  | [] => []
  | c :: r =>
      match characters r with
      | g :: gs => if continues r then (c :: g) :: gs else [c] :: g :: gs
      | [] => [[c]]
      end
  end.

(** UTF-8. *)
Definition utf8_encode (n : N) : bytes :=
  if (n <? 128)%N then [ascii_of_N n]
  else if (n <? 2048)%N then [ascii_of_N (192 + n / 64); ascii_of_N (128 + n mod 64)]
  else if (n <? 65536)%N then [ascii_of_N (224 + n / 4096); ascii_of_N (128 + n / 64 mod 64); ascii_of_N (128 + n mod 64)]
  else [ascii_of_N (240 + n / 262144); ascii_of_N (128 + n / 4096 mod 64); ascii_of_N (128 + n / 64 mod 64); ascii_of_N (128 + n mod 64)].

Definition lead_bits (k : nat) (c : byte) : N :=
  match k with
  | 2 => N_of_ascii c mod 32
  | 3 => N_of_ascii c mod 16
  | _ => N_of_ascii c mod 8
  end.

Definition utf8_code (g : bytes) : N :=
  match g with
  | c :: r => fold_left (fun n d => (64 * n + N_of_ascii d mod 64)%N) r (lead_bits (List.length g) c)
  | [] => 0
  end.

(** The code of a character beyond ASCII.  [None] for ASCII, and for what cannot
    occur in a [str]. *)
Definition utf8_decode (g : bytes) : option N :=
  let n := utf8_code g in
  if (128 <=? n)%N && (n <? 1114112)%N && bytes_eqb (utf8_encode n) g then Some n else None.

(** Numbers in hexadecimal notation, lower case ([{:x}]). *)
Fixpoint hex_bytes (d : Hexadecimal.uint) : bytes :=
  match d with
  | Hexadecimal.Nil => []
  | Hexadecimal.D0 d => "0" :: hex_bytes d
  | Hexadecimal.D1 d => "1" :: hex_bytes d
  | Hexadecimal.D2 d => "2" :: hex_bytes d
  | Hexadecimal.D3 d => "3" :: hex_bytes d
  | Hexadecimal.D4 d => "4" :: hex_bytes d
  | Hexadecimal.D5 d => "5" :: hex_bytes d
  | Hexadecimal.D6 d => "6" :: hex_bytes d
  | Hexadecimal.D7 d => "7" :: hex_bytes d
  | Hexadecimal.D8 d => "8" :: hex_bytes d
  | Hexadecimal.D9 d => "9" :: hex_bytes d
  | Hexadecimal.Da d => "a" :: hex_bytes d
  | Hexadecimal.Db d => "b" :: hex_bytes d
  | Hexadecimal.Dc d => "c" :: hex_bytes d
  | Hexadecimal.Dd d => "d" :: hex_bytes d
  | Hexadecimal.De d => "e" :: hex_bytes d
  | Hexadecimal.Df d => "f" :: hex_bytes d
  end.
Definition show_hex (n : N) : bytes := hex_bytes (N.to_hex_uint n).

Definition backslash : byte := "092".
Definition quote : byte := "034".

Definition unicode_escape (n : N) : bytes := backslash :: "u" :: "{" :: show_hex n ++ ["}"].

(** [char::escape_debug] for ASCII, with [\'] not escaped as in strings. *)
Definition escape_byte (c : byte) : bytes :=
  if Ascii.eqb c "000" then [backslash; "0"]
  else if Ascii.eqb c TAB then [backslash; "t"]
  else if Ascii.eqb c CR then [backslash; "r"]
  else if Ascii.eqb c LF then [backslash; "n"]
  else if Ascii.eqb c quote || Ascii.eqb c backslash then [backslash; c]
  else let n := N_of_ascii c in
       if ((n <? 32) || (n =? 127))%N then unicode_escape n else [c].

Definition escape_character (ch : choices) (g : bytes) : bytes :=
  match utf8_decode g with
  | Some n => if shown ch n then g else unicode_escape n
  | None => flat_map escape_byte g
  end.

Definition debug_str (ch : choices) (s : bytes) : bytes :=
  quote :: flat_map (escape_character ch) (characters s) ++ [quote].

(** * Collections and derived texts *)

Fixpoint separated (l : list bytes) : bytes :=
  match l with
  | [] => []
  | [s] => s
  | s :: r => s ++ lit ", " ++ separated r
  end.

(** [Vec] *)
Definition debug_vec {A} (show : A -> bytes) (l : list A) : bytes := lit "[" ++ separated (map show l) ++ lit "]".

(** A tuple struct or variant with fields. *)
Definition debug_tuple (name : string) (fields : list bytes) : bytes := lit name ++ lit "(" ++ separated fields ++ lit ")".

(** A struct with named fields. *)
Definition debug_field (f : string * bytes) : bytes := lit (fst f) ++ lit ": " ++ snd f.
Definition debug_struct (name : string) (fields : list (string * bytes)) : bytes :=
  lit name ++ lit " { " ++ separated (map debug_field fields) ++ lit " }".

(** A variant without fields. *)
Definition debug_unit (name : string) : bytes := lit name.

(** [Option] and [Result] *)
Definition debug_option {A} (show : A -> bytes) (o : option A) : bytes :=
  match o with
  | None => debug_unit "None"
  | Some a => debug_tuple "Some" [show a]
  end.
