(** What the string literals of Rust mean, and UTF-8.  Independent of the model. *)
From Verif Require Export Bytes NumberSpec.
Local Open Scope char_scope.
Local Open Scope list_scope.

(** The bytes of the character with number [n] (RFC 3629). *)
Inductive utf8 : N -> bytes -> Prop :=
| utf8_1 a : (a < 128)%N -> utf8 a [ascii_of_N a]
| utf8_2 a b : (a < 32)%N -> (b < 64)%N -> (128 <= 64 * a + b)%N ->
    utf8 (64 * a + b) [ascii_of_N (192 + a); ascii_of_N (128 + b)]
| utf8_3 a b c : (a < 16)%N -> (b < 64)%N -> (c < 64)%N -> (2048 <= 4096 * a + 64 * b + c)%N ->
    utf8 (4096 * a + 64 * b + c) [ascii_of_N (224 + a); ascii_of_N (128 + b); ascii_of_N (128 + c)]
| utf8_4 a b c d : (a < 8)%N -> (b < 64)%N -> (c < 64)%N -> (d < 64)%N -> (65536 <= 262144 * a + 4096 * b + 64 * c + d)%N ->
    utf8 (262144 * a + 4096 * b + 64 * c + d) [ascii_of_N (240 + a); ascii_of_N (128 + b); ascii_of_N (128 + c); ascii_of_N (128 + d)].

(** A hexadecimal digit as [{:x}] writes it. *)
Inductive hex_digit : byte -> N -> Prop :=
| hex_decimal c d : digit c d -> hex_digit c d
| hex_a : hex_digit "a" 10
| hex_b : hex_digit "b" 11
| hex_c : hex_digit "c" 12
| hex_d : hex_digit "d" 13
| hex_e : hex_digit "e" 14
| hex_f : hex_digit "f" 15.

Inductive hex_digits : bytes -> N -> Prop :=
| hex_none : hex_digits [] 0
| hex_more s n c d : hex_digits s n -> hex_digit c d -> hex_digits (s ++ [c]) (16 * n + d).

(** An escape of one letter: behind [\ ] it stands for the byte. *)
Inductive simple_escape : byte -> byte -> Prop :=
| escape_n : simple_escape "n" LF
| escape_r : simple_escape "r" CR
| escape_t : simple_escape "t" TAB
| escape_0 : simple_escape "0" "000"
| escape_backslash : simple_escape "092" "092"
| escape_quote : simple_escape "034" "034".

(** [literal_body t s]: the string literal with [t] between the quotation marks is
    the string [s]. *)
Inductive literal_body : bytes -> bytes -> Prop :=
| body_end : literal_body [] []
| body_plain c t s : c <> "034" -> c <> "092" -> literal_body t s -> literal_body (c :: t) (c :: s)
| body_simple e c t s : simple_escape e c -> literal_body t s -> literal_body ("092" :: e :: t) (c :: s)
| body_unicode h n u t s : h <> [] -> hex_digits h n -> utf8 n u -> literal_body t s ->
    literal_body ("092" :: "u" :: "{" :: h ++ "}" :: t) (u ++ s).
