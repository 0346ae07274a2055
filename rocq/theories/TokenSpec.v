(** What the token sequence of a text is, and what valid UTF-8 is.  Independent
    of the model: no definition of Lexer.v is used here. *)
From Verif Require Export Bytes.
Local Open Scope char_scope.
Local Open Scope list_scope.

(** Bytes that separate words and are otherwise ignored. *)
Definition separator (c : byte) : Prop := c = " " \/ c = "\" \/ c = TAB.

(** Bytes that end a line; each one is a token of its own. *)
Definition line_end (c : byte) : Prop := c = LF \/ c = CR.

(** Bytes of words. *)
Definition word_byte (c : byte) : Prop := ~ separator c /\ ~ line_end c /\ c <> "#".

(** [s] is empty or starts with a byte satisfying [P]. *)
Definition starts_with (P : byte -> Prop) (s : bytes) : Prop :=
  match s with
  | [] => True
  | c :: _ => P c
  end.

(** [tokenizes s ts]: the tokens of the text [s] are [ts]. *)
Inductive tokenizes : bytes -> list bytes -> Prop :=
| tk_end : tokenizes [] []
| tk_separator c s ts :
    separator c -> tokenizes s ts -> tokenizes (c :: s) ts
| tk_line_end c s ts :
    line_end c -> tokenizes s ts -> tokenizes (c :: s) ([c] :: ts)
| tk_comment text s ts :
    Forall (fun c => ~ line_end c) text -> starts_with line_end s ->
    tokenizes s ts -> tokenizes ("#" :: text ++ s) ts
| tk_word w s ts :
    w <> [] -> Forall word_byte w -> starts_with (fun c => ~ word_byte c) s ->
    tokenizes s ts -> tokenizes (w ++ s) (w :: ts).

(** ** Tokens *)

(** A token: a newline byte, or a non-empty run of bytes that are not newline
    bytes, separators or [#]. *)
Definition is_token (t : bytes) : Prop :=
  (exists c, line_end c /\ t = [c]) \/ (t <> [] /\ Forall word_byte t).

Definition slice_of (t input : bytes) : Prop := exists a b, input = a ++ t ++ b.

(** A name copied from the input. *)
Definition proper_name (input t : bytes) : Prop :=
  t <> [] /\ slice_of t input /\ Forall (fun c => ~ separator c /\ c <> "#"%char) t.

(** * UTF-8 (the Unicode standard, table 3-7; core::str::from_utf8) *)

Definition byte_in (lo hi : N) (c : byte) : Prop := (lo <= N_of_ascii c <= hi)%N.

Inductive utf8_char : bytes -> Prop :=
| utf8_1 a : byte_in 0 127 a -> utf8_char [a]
| utf8_2 a b : byte_in 194 223 a -> byte_in 128 191 b -> utf8_char [a; b]
| utf8_3_E0 a b c : byte_in 224 224 a -> byte_in 160 191 b -> byte_in 128 191 c ->
    utf8_char [a; b; c]
| utf8_3 a b c : byte_in 225 236 a -> byte_in 128 191 b -> byte_in 128 191 c ->
    utf8_char [a; b; c]
| utf8_3_ED a b c : byte_in 237 237 a -> byte_in 128 159 b -> byte_in 128 191 c ->
    utf8_char [a; b; c]
| utf8_3' a b c : byte_in 238 239 a -> byte_in 128 191 b -> byte_in 128 191 c ->
    utf8_char [a; b; c]
| utf8_4_F0 a b c d : byte_in 240 240 a -> byte_in 144 191 b -> byte_in 128 191 c ->
    byte_in 128 191 d -> utf8_char [a; b; c; d]
| utf8_4 a b c d : byte_in 241 243 a -> byte_in 128 191 b -> byte_in 128 191 c ->
    byte_in 128 191 d -> utf8_char [a; b; c; d]
| utf8_4_F4 a b c d : byte_in 244 244 a -> byte_in 128 143 b -> byte_in 128 191 c ->
    byte_in 128 191 d -> utf8_char [a; b; c; d].

Inductive valid_utf8 : bytes -> Prop :=
| valid_nil : valid_utf8 []
| valid_char c s : utf8_char c -> valid_utf8 s -> valid_utf8 (c ++ s).

(** * Lines *)

(** The line on which something stands that comes after [before]. *)
Definition line_after (before : bytes) : nat := S (count_occ ascii_dec before LF).

(** A text with CR LF in place of LF. *)
Fixpoint crlf (s : bytes) : bytes :=
  match s with
  | [] => []
  | c :: s' => if Ascii.eqb c LF then CR :: LF :: crlf s' else c :: crlf s'
  end.
