(** What the errors of [mtl::parse] say about the text.  Independent of the model. *)
From Verif Require Export MtlSpec.
Local Open Scope list_scope.

(** As in MessageSpec.v. *)
Definition quoted (read rest : list bytes) (t : bytes) : Prop :=
  (exists a, read = a ++ [t]) \/ (read = [] /\ exists b, rest = t :: b).

Inductive explains (read rest : list bytes) : complaint -> Prop :=
| says_end : rest = [] -> explains read rest (EndOfFile, msg_end)
| says_map_end f w : read = [w] -> map_word f w -> rest = [] -> explains read rest (EndOfFile, msg_map_end)
| says_name_end : read = [lit "newmtl"] -> rest = [] -> explains read rest (EndOfFile, msg_name_end)
| says_float t : quoted read rest t -> RustStd.parse_f64 t = None -> explains read rest (ExpectedFloat, msg_float t)
| says_integer : forall t, read = [lit "illum"; t] -> RustStd.parse_usize t = None ->
    explains read rest (ExpectedInteger, msg_integer t)
| says_illum_number t n : read = [lit "illum"; t] -> RustStd.parse_usize t = Some n -> (2 < n)%N ->
    explains read rest (UnknownIlluminationModel, msg_illum n)
| says_unknown t : quoted read rest t -> ~ keyword t -> t <> nl -> t <> lit "newmtl" ->
    explains read rest (ErrorParsingMaterial, msg_material t)
| says_not_end t : quoted read rest t -> t <> nl -> t <> lit "newmtl" ->
    explains read rest (ExpectedEndOfInput, msg_not_end t).
