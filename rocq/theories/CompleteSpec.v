(** What [obj::parse] and [mtl::parse] give for a text, said completely: every
    outcome there is, in terms of the text alone.  Independent of the parser
    models. *)
From Verif Require Import ObjTypes ParserBase ObjErrorSpec ObjView.
From Verif Require MtlTypes MtlSpec.
Local Open Scope list_scope.

(** A text refers to something so far back that a debug build overflows. *)
Definition overflowing (input : bytes) : Prop := exists ts, tokenizes input ts /\ overflows_file ts.

(** [obj_gives dbg input r]: in a debug build ([dbg]) or a release build, [r] is
    the outcome for [input]. *)
Definition obj_gives (dbg : bool) (input : bytes) (r : outcome (parse_error error_kind) object_set) : Prop :=
  match r with
  | Ok set =>
      (exists f, says input f /\ Forall drawable (file_objects f) /\ set = file_means f) /\
      (dbg = true -> ~ overflowing input)
  | Err e =>
      (exists x y z tx ty tz, input = x ++ y ++ z /\
        tokenizes x tx /\ tokenizes y ty /\ tokenizes z tz /\ tokenizes input (tx ++ ty ++ tz) /\
        fails_at (tx ++ ty ++ tz) (ty ++ tz) (err_kind e, err_message e) tz /\
        err_line_number e = line_after (x ++ y)) /\
      (dbg = true -> ~ overflowing input)
  | Panic PanicOverflow => dbg = true /\ overflowing input
  | Panic PanicIndex =>
      (exists ts done o rest, tokenizes input ts /\ reaches ts done (Some o) rest /\ at_object_end rest /\ ~ drawable o) /\
      (dbg = true -> ~ overflowing input)
  | Panic _ => False
  | Diverge => False
  end.

Definition mtl_gives (input : bytes) (r : outcome (parse_error MtlTypes.error_kind) MtlTypes.material_set) : Prop :=
  match r with
  | Ok set => exists ts f, tokenizes input ts /\ MtlSpec.says_file f ts /\ set = MtlSpec.file_means f
  | Err e =>
      exists x y z tx ty tz, input = x ++ y ++ z /\
        tokenizes x tx /\ tokenizes y ty /\ tokenizes z tz /\ tokenizes input (tx ++ ty ++ tz) /\
        MtlSpec.fails_at tx (ty ++ tz) (err_kind e, err_message e) tz /\
        err_line_number e = line_after (x ++ y)
  | Panic _ => False
  | Diverge => False
  end.
