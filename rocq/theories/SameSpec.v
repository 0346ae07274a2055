(** The same number written in different ways, and outcomes that differ in the
    message of an error at most.  Independent of the model. *)
From Verif Require Export TokenSpec ParserBase.
From Verif Require RustStd.
Local Open Scope list_scope.

(** Two tokens that are read as the same number. *)
Definition same_number {A} (read : bytes -> option A) (t t' : bytes) : Prop :=
  exists x, read t = Some x /\ read t' = Some x.

Definition same_float : bytes -> bytes -> Prop := same_number RustStd.parse_f64.
Definition same_integer : bytes -> bytes -> Prop := same_number RustStd.parse_isize.
Definition same_natural : bytes -> bytes -> Prop := same_number RustStd.parse_usize.

(** The same result; of an error, the same kind and line. *)
Definition same_outcome {K A} (r r' : outcome (parse_error K) A) : Prop :=
  match r, r' with
  | Ok x, Ok x' => x = x'
  | Err e, Err e' => err_line_number e = err_line_number e' /\ err_kind e = err_kind e'
  | Panic p, Panic p' => p = p'
  | _, _ => False
  end.
