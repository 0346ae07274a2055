(** Where a statement may start. *)
From Verif Require Export ObjErrorSpec.
Local Open Scope list_scope.

(** Some of the [mtllib] lines and empty lines at the top. *)
Inductive some_libraries : list bytes -> list bytes -> list bytes -> Prop :=
| some_none ts : some_libraries ts [] ts
| some_blank ts libs rest : some_libraries ts libs rest -> some_libraries (nl :: ts) libs rest
| some_line ts names mid libs rest :
    reads_line ts names mid -> some_libraries mid libs rest ->
    some_libraries (lit "mtllib" :: ts) (names ++ libs) rest.

(** The tokens [T] can be read up to [rest], where no statement has been begun. *)
Definition between (T rest : list bytes) : Prop :=
  (exists libs, some_libraries T libs rest) \/ (exists done cur, reaches T done cur rest).

(** What follows a newline with [before] in front of it is [rest]: either no
    statement has been begun there, or the newline is the name of an object. *)
Definition line_starts (T before rest : list bytes) : Prop :=
  between T rest \/
  exists before' rest' done, before = before' ++ [lit "o"] /\ rest = nl :: rest' /\ reaches T done (Some (nl, [])) rest'.

(** The tokens of a line with at most one statement, one that does not take what
    follows it. *)
Inductive simple_line : list bytes -> Prop :=
| simple_blank : simple_line []
| simple_v args : Forall (fun t => exists x, float_token t x) args -> length args <= 4 -> simple_line (lit "v" :: args)
| simple_vt args : Forall (fun t => exists x, float_token t x) args -> length args <= 3 -> simple_line (lit "vt" :: args)
| simple_vn args : length args <= 3 -> simple_line (lit "vn" :: args)
| simple_s args : length args <= 1 -> simple_line (lit "s" :: args)
| simple_usemtl name : simple_line [lit "usemtl"; name]
| simple_o name : simple_line [lit "o"; name].

(** [at_line input line rest]: [line] is a line of [input] up to [rest]. *)
Definition at_line (input line rest : bytes) : Prop :=
  Forall (fun c => ~ line_end c) line /\
  (input = line ++ rest \/ exists before, input = before ++ LF :: line ++ rest).

(** [cut_file f f']: [f'] is what [f] has up to some place between its
    statements. *)
Inductive cut_file : obj_file -> obj_file -> Prop :=
| cut_libraries libs libs' os : cut_file (mkObjFile (libs ++ libs') os) (mkObjFile libs [])
| cut_between libs os os' : cut_file (mkObjFile libs (os ++ os')) (mkObjFile libs os)
| cut_inside libs os name ss ss' os' :
    cut_file (mkObjFile libs (os ++ (name, ss ++ ss') :: os')) (mkObjFile libs (os ++ [(name, ss)])).

(** [front_of ob ob']: [ob'] is an object with the first part of what [ob] has. *)
Definition prefix {A} (l l' : list A) : Prop := exists more, l = l' ++ more.

Definition front_of (ob ob' : object) : Prop :=
  name ob = name ob' /\ prefix (vertex_set ob) (vertex_set ob') /\
  prefix (texture_vertex_set ob) (texture_vertex_set ob') /\ prefix (normal_vertex_set ob) (normal_vertex_set ob') /\
  prefix (group_set ob) (group_set ob') /\ prefix (smoothing_group_set ob) (smoothing_group_set ob') /\
  prefix (element_set ob) (element_set ob') /\ prefix (shape_set ob) (shape_set ob').

(** The first objects, and of the next one perhaps the first part. *)
Inductive front_set : object_set -> object_set -> Prop :=
| front_libraries libs libs' os : front_set (mkObjectSet (libs ++ libs') os) (mkObjectSet libs [])
| front_between libs os os' : front_set (mkObjectSet libs (os ++ os')) (mkObjectSet libs os)
| front_inside libs os ob ob' os' : front_of ob ob' ->
    front_set (mkObjectSet libs (os ++ ob :: os')) (mkObjectSet libs (os ++ [ob'])).
