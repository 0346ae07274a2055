(** Where and why reading an OBJ text stops with an error.  Like ObjSpec.v this
    does not use the model. *)
From Verif Require Export ObjSpec.
Local Open Scope list_scope.

(** * Messages (the texts of src/obj.rs) *)

Definition msg_end : bytes :=
  lit "Reached the end of the input in the process of getting the next token.".
Definition msg_float (t : bytes) : bytes :=
  lit "Expected a floating point number but got `" ++ t ++ lit "` instead.".
Definition msg_integer (t : bytes) : bytes :=
  lit "Expected an integer but got `" ++ t ++ lit "` instead.".
Definition msg_tag (tag t : bytes) : bytes :=
  lit "Expected `" ++ tag ++ lit "` but got `" ++ t ++ lit "` instead.".
Definition msg_vtn (t : bytes) : bytes :=
  lit "Expected a `vertex/texture/normal` index but got `" ++ t ++ lit "` instead.".
Definition msg_range (lo hi : nat) (z : Z) : bytes :=
  lit "Expected index in range [" ++ show_nat lo ++ lit ", " ++ show_nat hi
    ++ lit "), but got " ++ show_Z z ++ lit ".".
Definition msg_statement (t : bytes) : bytes :=
  lit "Unsupported or invalid object statement `" ++ t ++ lit "`.".
Definition msg_smoothing (t : bytes) : bytes :=
  lit "A smoothing group name must either be `off`, which denotes that an object has no smoothing groups, or an integer. The parser got `"
    ++ t ++ lit "` instead.".
Definition msg_no_smoothing : bytes :=
  lit "Got a smoothing group declaration without a smoothing group name.".
Definition msg_no_material : bytes :=
  lit "Got a `usemtl` material declaration without a material name.".
Definition msg_few : bytes := lit "A face primitive must have at least three vertices.".
Definition msg_line_form : bytes := lit "Every VTN index for a line must have the same form.".
Definition msg_face_form : bytes := lit "Every VTN index for a face must have the same form.".

(** * Tokens *)

(** An error: its kind and its message. *)
Definition complaint : Type := error_kind * bytes.

(** What is wrong with a token where a number is required. *)
Inductive not_float : list bytes -> complaint -> list bytes -> Prop :=
| float_missing : not_float [] (EndOfFile, msg_end) []
| float_wrong t rest : (forall x, ~ float_token t x) ->
    not_float (t :: rest) (ExpectedFloat, msg_float t) rest.

(** An integer that is not the number of anything in scope.  The message shows
    it decremented, or, if it is not positive, subtracted from the upper bound
    (modulo 2^64 if that is out of range). *)
Definition shown_index (hi : nat) (z : Z) : Z :=
  if (0 <? z)%Z then (z - 1)%Z else wrap_isize (Z.of_nat hi - z).

Inductive bad_number (base now : nat) : bytes -> complaint -> Prop :=
| number_not t : RustStd.parse_isize t = None -> bad_number base now t (ExpectedInteger, msg_integer t)
| number_out t z : RustStd.parse_isize t = Some z ->
    (forall k, z = Z.of_nat k -> ~ in_scope base now k) ->
    bad_number base now t (VTNIndexOutOfRange, msg_range base now (shown_index now z)).

(** The parts of a token between its slashes. *)
Definition no_slash (p : bytes) : Prop := ~ In "/"%char p.

Fixpoint with_slashes (ps : list bytes) : bytes :=
  match ps with
  | [] => []
  | [p] => p
  | p :: ps' => p ++ slash ++ with_slashes ps'
  end.

Definition parts_of (t : bytes) (ps : list bytes) : Prop :=
  ps <> [] /\ Forall no_slash ps /\ t = with_slashes ps.

Definition good_part (base now : nat) (p : bytes) : Prop :=
  exists k, part_token p k /\ part_in_scope base now k.

Definition bad_part (base now : nat) (p : bytes) (c : complaint) : Prop :=
  p <> [] /\ bad_number base now p c.

(** What is wrong with a token where a reference is required. *)
Inductive bad_ref (base now : counts) (t : bytes) : complaint -> Prop :=
| bad_ref_v p ps c :
    parts_of t (p :: ps) -> bad_part (n_v base) (n_v now) p c -> bad_ref base now t c
| bad_ref_t p q ps c :
    parts_of t (p :: q :: ps) -> good_part (n_v base) (n_v now) p ->
    bad_part (n_t base) (n_t now) q c -> bad_ref base now t c
| bad_ref_n p q r ps c :
    parts_of t (p :: q :: r :: ps) -> good_part (n_v base) (n_v now) p ->
    good_part (n_t base) (n_t now) q -> bad_part (n_n base) (n_n now) r c -> bad_ref base now t c
| bad_ref_empty ps :
    parts_of t ([] :: ps) ->
    (forall q ps', ps = q :: ps' -> good_part (n_t base) (n_t now) q) ->
    (forall q r ps', ps = q :: r :: ps' -> good_part (n_n base) (n_n now) r) ->
    bad_ref base now t (ExpectedVTNIndex, msg_vtn t)
| bad_ref_many p q r s ps :
    parts_of t (p :: q :: r :: s :: ps) -> good_part (n_v base) (n_v now) p ->
    good_part (n_t base) (n_t now) q -> good_part (n_n base) (n_n now) r ->
    bad_ref base now t (ExpectedVTNIndex, msg_vtn t).

(** * Statements *)

Definition keywords : list bytes :=
  [lit "g"; lit "s"; lit "usemtl"; lit "v"; lit "vt"; lit "vn"; lit "p"; lit "l"; lit "f"].

(** [fails_statement base now ts c rest]: reading a statement from [ts] fails
    with [c]; the tokens in front of [rest] have been consumed by then. *)
Inductive fails_statement (base now : counts) : list bytes -> complaint -> list bytes -> Prop :=
| fails_v_x ts c rest : not_float ts c rest -> fails_statement base now (lit "v" :: ts) c rest
| fails_v_y tx x ts c rest : float_token tx x -> not_float ts c rest ->
    fails_statement base now (lit "v" :: tx :: ts) c rest
| fails_v_z tx x ty y ts c rest : float_token tx x -> float_token ty y -> not_float ts c rest ->
    fails_statement base now (lit "v" :: tx :: ty :: ts) c rest
| fails_vt ts c rest : not_float ts c rest -> fails_statement base now (lit "vt" :: ts) c rest
| fails_vn_x ts c rest : not_float ts c rest -> fails_statement base now (lit "vn" :: ts) c rest
| fails_vn_y tx x ts c rest : float_token tx x -> not_float ts c rest ->
    fails_statement base now (lit "vn" :: tx :: ts) c rest
| fails_vn_z tx x ty y ts c rest : float_token tx x -> float_token ty y -> not_float ts c rest ->
    fails_statement base now (lit "vn" :: tx :: ty :: ts) c rest
| fails_s_eof : fails_statement base now [lit "s"] (SmoothingGroupDeclarationHasNoName, msg_no_smoothing) []
| fails_s t rest : (forall n, ~ smoothing_token t n) ->
    fails_statement base now (lit "s" :: t :: rest)
      (SmoothingGroupNameMustBeOffOrInteger, msg_smoothing t) rest
| fails_usemtl : fails_statement base now [lit "usemtl"] (MaterialStatementHasNoName, msg_no_material) []
| fails_p_eof : fails_statement base now [lit "p"] (EndOfFile, msg_end) []
| fails_p toks ks t c rest :
    Forall2 (point_token base now) toks ks -> (toks = [] \/ t <> nl) ->
    bad_number (n_v base) (n_v now) t c ->
    fails_statement base now (lit "p" :: toks ++ t :: rest) c rest
| fails_l_eof toks rs :
    Forall2 (valid_ref base now) toks rs -> length rs < 2 ->
    fails_statement base now (lit "l" :: toks) (EndOfFile, msg_end) []
| fails_l_ref toks rs t c rest :
    Forall2 (valid_ref base now) toks rs -> length rs < 2 -> bad_ref base now t c ->
    fails_statement base now (lit "l" :: toks ++ t :: rest) c rest
| fails_l_form ts rs rest :
    reads_refs base now ts rs rest -> 2 <= length rs -> ~ same_form rs ->
    fails_statement base now (lit "l" :: ts)
      (EveryVTNIndexMustHaveTheSameFormForAGivenElement, msg_line_form) rest
| fails_f_few ts rs rest :
    reads_refs base now ts rs rest -> length rs < 3 ->
    fails_statement base now (lit "f" :: ts)
      (EveryFaceElementMustHaveAtLeastThreeVertices, msg_few) rest
| fails_f_form ts rs rest :
    reads_refs base now ts rs rest -> 3 <= length rs -> ~ same_form rs ->
    fails_statement base now (lit "f" :: ts)
      (EveryVTNIndexMustHaveTheSameFormForAGivenElement, msg_face_form) rest
| fails_unknown t ts :
    ~ In t keywords -> t <> nl -> t <> lit "o" ->
    fails_statement base now (t :: ts) (InvalidObjectStatement, msg_statement t) (t :: ts).

(** * Files *)

Inductive fails_body (base : counts) : counts -> list bytes -> complaint -> list bytes -> Prop :=
| fails_here now ts c rest : fails_statement base now ts c rest -> fails_body base now ts c rest
| fails_after_blank now ts c rest : fails_body base now ts c rest -> fails_body base now (nl :: ts) c rest
| fails_after now ts s mid c rest :
    reads_statement base now ts s mid -> fails_body base (count now s) mid c rest ->
    fails_body base now ts c rest.

(** The line that names an object: [o], a token, and a newline. *)
Inductive fails_header : list bytes -> complaint -> list bytes -> Prop :=
| header_eof_1 : fails_header [lit "o"] (EndOfFile, msg_end) []
| header_eof_2 name : fails_header [lit "o"; name] (EndOfFile, msg_end) []
| header_tag name t rest : t <> nl ->
    fails_header (lit "o" :: name :: t :: rest) (ExpectedTagStatement, msg_tag nl t) rest.

(** Reading the object that starts at [ts] fails. *)
Inductive fails_object (now : counts) : list bytes -> complaint -> list bytes -> Prop :=
| fails_named_header ts c rest : fails_header ts c rest -> fails_object now ts c rest
| fails_named_body name ts c rest : fails_body now now ts c rest ->
    fails_object now (lit "o" :: name :: nl :: ts) c rest.

(** The counts at the end of some objects. *)
Definition count_objects (now : counts) (os : list (bytes * list statement)) : counts :=
  fold_left (fun now o => count_all now (snd o)) os now.

(** [fails_file ts c rest]: a file whose first objects are fine, and in which the
    next one fails with [c]. *)
Inductive fails_file : list bytes -> complaint -> list bytes -> Prop :=
| fails_first ts libs mid c rest :
    reads_libraries ts libs mid -> ~ at_object_end mid ->
    fails_body no_counts no_counts mid c rest -> fails_file ts c rest
| fails_next ts f mid c rest :
    reads_file ts f mid -> Forall drawable (file_objects f) ->
    fails_object (count_objects no_counts (file_objects f)) mid c rest -> fails_file ts c rest.

(** A file in which an object is neither a drawable one nor wrong: the first
    such object ends with a panic. *)
Definition panics_file (ts : list bytes) (rest : list bytes) : Prop :=
  exists libs os o, reads_file ts (mkObjFile libs (os ++ [o])) rest /\ Forall drawable os /\ ~ drawable o.

(** * How far a file is fine

    [reaches ts done cur rest]: the tokens [ts] can be read up to [rest]; [done]
    are the objects completed so far.  [cur] is the object that is being read
    (its name and its statements so far), or [None] between objects. *)

Definition counts_in (done : list (bytes * list statement)) (ss : list statement) : counts :=
  count_all (count_objects no_counts done) ss.

Inductive reaches (ts : list bytes) :
  list (bytes * list statement) -> option (bytes * list statement) -> list bytes -> Prop :=
| reaches_start libs rest : reads_libraries ts libs rest -> reaches ts [] None rest
| reaches_unnamed rest : reaches ts [] None rest -> ~ at_object_end rest ->
    reaches ts [] (Some ([], [])) rest
| reaches_named done name rest : reaches ts done None (lit "o" :: name :: nl :: rest) ->
    reaches ts done (Some (name, [])) rest
| reaches_blank done o rest : reaches ts done (Some o) (nl :: rest) -> reaches ts done (Some o) rest
| reaches_statement done name ss s mid rest : reaches ts done (Some (name, ss)) mid ->
    reads_statement (counts_in done []) (counts_in done ss) mid s rest ->
    reaches ts done (Some (name, ss ++ [s])) rest
| reaches_end done o rest : reaches ts done (Some o) rest -> at_object_end rest -> drawable o ->
    reaches ts (done ++ [o]) None rest.

(** Reading fails with [c] at the statement or object header that starts at
    [ts]. *)
Definition fails_at (T : list bytes) (ts : list bytes) (c : complaint) (rest : list bytes) : Prop :=
  (exists done n ss, reaches T done (Some (n, ss)) ts /\
     fails_statement (counts_in done []) (counts_in done ss) ts c rest) \/
  (exists done, reaches T done None ts /\ fails_header ts c rest).

(** * Debug builds

    A debug build checks subtractions for overflow.  The number of things of a
    kind so far, minus an index that is not positive, is too large for [isize]: *)
Definition too_low (now : nat) (t : bytes) : Prop :=
  exists z, RustStd.parse_isize t = Some z /\ (z < 0)%Z /\ (isize_max < Z.of_nat now - z)%Z.

Inductive ref_too_low (base now : counts) (t : bytes) : Prop :=
| low_v p ps :
    parts_of t (p :: ps) -> too_low (n_v now) p -> ref_too_low base now t
| low_t p q ps :
    parts_of t (p :: q :: ps) -> good_part (n_v base) (n_v now) p ->
    too_low (n_t now) q -> ref_too_low base now t
| low_n p q r ps :
    parts_of t (p :: q :: r :: ps) -> good_part (n_v base) (n_v now) p ->
    good_part (n_t base) (n_t now) q -> too_low (n_n now) r -> ref_too_low base now t.

(** The statement at [ts] has such an index, after others that are fine. *)
Inductive overflows (base now : counts) : list bytes -> Prop :=
| overflows_p toks ks t rest :
    Forall2 (point_token base now) toks ks -> too_low (n_v now) t ->
    overflows base now (lit "p" :: toks ++ t :: rest)
| overflows_l toks rs t rest :
    Forall2 (valid_ref base now) toks rs -> ref_too_low base now t ->
    overflows base now (lit "l" :: toks ++ t :: rest)
| overflows_f toks rs t rest :
    Forall2 (valid_ref base now) toks rs -> ref_too_low base now t ->
    overflows base now (lit "f" :: toks ++ t :: rest).

Definition overflows_file (T : list bytes) : Prop :=
  exists done n ss ts, reaches T done (Some (n, ss)) ts /\
    overflows (counts_in done []) (counts_in done ss) ts.
