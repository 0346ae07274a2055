(** Texts that write down a given model.  Independent of the parser model. *)
From Verif Require Export ObjSpec ObjView.
Local Open Scope list_scope.

(** [writes s line]: the tokens [line] write the statement [s].  The defaults may
    be left out; numbers may be spelled in any way. *)
Inductive writes : statement -> list bytes -> Prop :=
| writes_v3 tx ty tz x y z :
    float_token tx x -> float_token ty y -> float_token tz z ->
    writes (SVertex (mkVertex x y z f64_one)) [lit "v"; tx; ty; tz]
| writes_v4 tx ty tz tw x y z w :
    float_token tx x -> float_token ty y -> float_token tz z -> float_token tw w ->
    writes (SVertex (mkVertex x y z w)) [lit "v"; tx; ty; tz; tw]
| writes_vt1 tu u : float_token tu u -> writes (STexture (mkTextureVertex u f64_zero f64_zero)) [lit "vt"; tu]
| writes_vt2 tu tv u v : float_token tu u -> float_token tv v ->
    writes (STexture (mkTextureVertex u v f64_zero)) [lit "vt"; tu; tv]
| writes_vt3 tu tv tw u v w : float_token tu u -> float_token tv v -> float_token tw w ->
    writes (STexture (mkTextureVertex u v w)) [lit "vt"; tu; tv; tw]
| writes_vn tx ty tz x y z :
    float_token tx x -> float_token ty y -> float_token tz z ->
    writes (SNormal (mkNormalVertex x y z)) [lit "vn"; tx; ty; tz]
| writes_g names : ~ In nl names -> writes (SGroup names) (lit "g" :: names)
| writes_s t n : smoothing_token t n -> writes (SSmooth n) [lit "s"; t]
| writes_usemtl name : writes (SUse name) [lit "usemtl"; name]
| writes_p toks ks : Forall2 number_token toks ks -> writes (SPoint ks) (lit "p" :: toks)
| writes_l toks rs : Forall2 ref_token toks rs -> writes (SLine rs) (lit "l" :: toks)
| writes_f toks rs : Forall2 ref_token toks rs -> writes (SFace rs) (lit "f" :: toks).

(** One statement per line, with blank lines anywhere.  The last line of a file
    need not end with a newline. *)
Inductive writes_body (last : bool) : list statement -> list bytes -> Prop :=
| writes_body_end : writes_body last [] []
| writes_body_blank ss ts : writes_body last ss ts -> writes_body last ss (nl :: ts)
| writes_body_line s line ss ts :
    writes s line -> writes_body last ss ts -> writes_body last (s :: ss) (line ++ nl :: ts)
| writes_body_last s line : last = true -> writes s line -> writes_body last [s] line.

Definition none_left {A} (l : list A) : bool := match l with [] => true | _ => false end.

Inductive writes_objects : list (bytes * list statement) -> list bytes -> Prop :=
| writes_objects_end : writes_objects [] []
| writes_objects_more name ss ts os ts' :
    writes_body (none_left os) ss ts -> writes_objects os ts' ->
    writes_objects ((name, ss) :: os) (lit "o" :: name :: nl :: ts ++ ts').

Inductive writes_libraries : list bytes -> list bytes -> Prop :=
| writes_libraries_end : writes_libraries [] []
| writes_libraries_blank libs ts : writes_libraries libs ts -> writes_libraries libs (nl :: ts)
| writes_libraries_line names libs ts :
    ~ In nl names -> writes_libraries libs ts ->
    writes_libraries (names ++ libs) (lit "mtllib" :: names ++ nl :: ts).

(** The first object may have its name left out, if it is empty. *)
Inductive writes_file : obj_file -> list bytes -> Prop :=
| writes_named libs os tl ts : writes_libraries libs tl -> writes_objects os ts ->
    writes_file (mkObjFile libs os) (tl ++ ts)
| writes_unnamed libs ss os tl ts ts' :
    writes_libraries libs tl -> writes_body (none_left os) ss ts -> writes_objects os ts' ->
    writes_file (mkObjFile libs (([], ss) :: os)) (tl ++ ts ++ ts').

(** A model of which [obj::parse] can return the meaning: references are in
    scope, and every object can be drawn. *)
Definition well_formed (f : obj_file) : Prop :=
  proper_objects no_counts (file_objects f) /\ Forall drawable (file_objects f).
