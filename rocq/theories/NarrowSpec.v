(** How results on platforms with different word sizes compare. *)
From Verif Require Import ObjModel.
From Verif Require MtlTypes.
Local Open Scope list_scope.

(** The largest [isize] and the largest [usize] where they have [bits] bits. *)
Definition largest_isize (bits : Z) : Z := (2 ^ (bits - 1) - 1)%Z.
Definition largest_usize (bits : Z) : Z := (2 ^ bits - 1)%Z.

(** The error for a smoothing group whose number is not a [usize] of that platform. *)
Definition smoothing_too_large (bits : Z) (e : parse_error error_kind) : Prop :=
  err_kind e = SmoothingGroupNameMustBeOffOrInteger /\
  exists t n, RustStd.parse_usize t = Some n /\ (largest_usize bits < Z.of_N n)%Z /\
    err_message e = lit "A smoothing group name must either be `off`, which denotes that an object has no smoothing groups, or an integer. The parser got `" ++ t ++ lit "` instead.".

(** Errors of the same line that are the same, unless an index is out of range: such
    an index may also be no [isize] of the smaller platform. *)
Definition same_error (e e' : parse_error error_kind) : Prop :=
  err_line_number e = err_line_number e' /\
  (e = e' \/ err_kind e' = VTNIndexOutOfRange /\ (err_kind e = ExpectedInteger \/ err_kind e = VTNIndexOutOfRange)).

(** A smoothing group of these objects has a number that is not a [usize] of that
    platform. *)
Definition too_large_group (bits : Z) (set : object_set) : Prop :=
  exists ob k, In ob (objects set) /\ In k (smoothing_group_set ob) /\ (largest_usize bits < Z.of_N k)%Z.

(** What happens on a platform with [bits] bits, and what happens with 64. *)
Inductive same_ending (bits : Z) (dbg : bool) :
  outcome (parse_error error_kind) object_set -> outcome (parse_error error_kind) object_set -> Prop :=
| both_ok set : same_ending bits dbg (Ok set) (Ok set)
| both_error e e' : same_error e e' -> same_ending bits dbg (Err e) (Err e')
| both_panic x : same_ending bits dbg (Panic x) (Panic x)
| smoothing e r : smoothing_too_large bits e -> (forall set, r = Ok set -> too_large_group bits set) ->
    same_ending bits dbg (Err e) r
| overflow_narrow r : dbg = true -> same_ending bits dbg (Panic PanicOverflow) r
| overflow_wide r : dbg = true -> same_ending bits dbg r (Panic PanicOverflow).

(** For material files: the errors for an illumination model whose number is not a
    [usize] of the platform. *)
Definition illumination_too_large (bits : Z) (e e' : parse_error MtlTypes.error_kind) : Prop :=
  err_line_number e = err_line_number e' /\
  exists t n, RustStd.parse_usize t = Some n /\ (largest_usize bits < Z.of_N n)%Z /\
    err_kind e = MtlTypes.ExpectedInteger /\ err_message e = lit "Expected integer but got " ++ t /\
    err_kind e' = MtlTypes.UnknownIlluminationModel /\
    err_message e' = lit "Unknown illumination model: " ++ show_N n ++ lit ".".

(** The error for an unknown illumination model whose number is not a [usize] of the
    platform. *)
Definition names_too_large (bits : Z) (e : parse_error MtlTypes.error_kind) : Prop :=
  exists n, (largest_usize bits < Z.of_N n)%Z /\ err_kind e = MtlTypes.UnknownIlluminationModel /\
    err_message e = lit "Unknown illumination model: " ++ show_N n ++ lit ".".
