(** The grammars of GRAMMAR.md, transcribed rule by rule.  Independent of the
    parser model and of ObjSpec.v and MtlSpec.v.

    GRAMMAR.md does not say where lines end.  Here each statement has a line of
    its own, and a line is a list of words. *)
From Verif Require Export LineSpec NumberSpec.
Local Open Scope char_scope.
Local Open Scope list_scope.

(** * Words (GRAMMAR.md:24-37, and the same in 75-87) *)

(** Digit *)
Definition Digit (c : byte) : Prop := exists d, digit c d.

(** Letter *)
Definition Letter (c : byte) : Prop :=
  (97 <= N_of_ascii c <= 122)%N \/ (65 <= N_of_ascii c <= 90)%N.

(** String ::= [Letter]+ [Digit | Letter]* *)
Definition String_ (s : bytes) : Prop :=
  exists a b, s = a ++ b /\ a <> [] /\ Forall Letter a /\ Forall (fun c => Digit c \/ Letter c) b.

(** Digits ::= [Digit]+ *)
Definition Digits (s : bytes) : Prop := s <> [] /\ Forall Digit s.

(** Number ::= ['-'] Digits *)
Definition Number (s : bytes) : Prop := exists d, Digits d /\ (s = d \/ s = "-" :: d).

(** Float ::= Number '.' Digits *)
Definition Float (s : bytes) : Prop := exists a b, Number a /\ Digits b /\ s = a ++ "." :: b.

(** * OBJ (GRAMMAR.md:38-61) *)

Definition line := list bytes.

Definition optional (P : bytes -> Prop) (l : line) : Prop := l = [] \/ exists w, P w /\ l = [w].

(** Vertex ::= 'v' Float Float Float [Float] *)
Definition Vertex (l : line) : Prop :=
  exists x y z w, Float x /\ Float y /\ Float z /\ optional Float w /\ l = [lit "v"; x; y; z] ++ w.

(** TextureVertex ::= 'vt' Float [Float] [Float] *)
Definition TextureVertex (l : line) : Prop :=
  exists u v w, Float u /\ optional Float v /\ optional Float w /\ l = [lit "vt"; u] ++ v ++ w.

(** NormalVertex ::= 'vn' Float Float Float *)
Definition NormalVertex (l : line) : Prop :=
  exists x y z, Float x /\ Float y /\ Float z /\ l = [lit "vn"; x; y; z].

(** ParameterVertex ::= 'vp' Float [Float] [Float] *)
Definition ParameterVertex (l : line) : Prop :=
  exists u v w, Float u /\ optional Float v /\ optional Float w /\ l = [lit "vp"; u] ++ v ++ w.

(** AnyVertex ::= Vertex | TextureVertex | NormalVertex | ParameterVertex *)
Definition AnyVertex (l : line) : Prop := Vertex l \/ TextureVertex l \/ NormalVertex l \/ ParameterVertex l.

Definition V (s : bytes) : Prop := Number s.
Definition VN (s : bytes) : Prop := exists a b, Number a /\ Number b /\ s = a ++ lit "//" ++ b.
Definition VT (s : bytes) : Prop := exists a b, Number a /\ Number b /\ s = a ++ lit "/" ++ b.
Definition VTN (s : bytes) : Prop :=
  exists a b c, Number a /\ Number b /\ Number c /\ s = a ++ lit "/" ++ b ++ lit "/" ++ c.

(** Point ::= 'p' Number [Number]* *)
Definition Point (l : line) : Prop := exists ws, l = lit "p" :: ws /\ ws <> [] /\ Forall Number ws.

(** Line ::= 'l' (VT VT [VT]+ | V V [V]+) *)
Definition Line (l : line) : Prop :=
  exists ws, l = lit "l" :: ws /\ 3 <= List.length ws /\ (Forall VT ws \/ Forall V ws).

(** Face ::= 'f' V V V [V]* | 'f' VT VT VT [VT]* | 'f' VN VN VN [VN]* | 'f' VTN VTN VTN [VTN]* *)
Definition Face (l : line) : Prop :=
  exists ws, l = lit "f" :: ws /\ 3 <= List.length ws /\
    (Forall V ws \/ Forall VT ws \/ Forall VN ws \/ Forall VTN ws).

(** Element ::= Point | Line | Face *)
Definition Element (l : line) : Prop := Point l \/ Line l \/ Face l.

(** GroupName ::= 'g' [String]* *)
Definition GroupName (l : line) : Prop := exists ws, l = lit "g" :: ws /\ Forall String_ ws.

(** SmoothingGroup ::= 's' ('off' | 0 | Digits) *)
Definition SmoothingGroup (l : line) : Prop := exists w, l = [lit "s"; w] /\ (w = lit "off" \/ w = lit "0" \/ Digits w).

(** ** Several lines *)

Definition lang := list line -> Prop.

Definition single (P : line -> Prop) : lang := fun ls => exists l, P l /\ ls = [l].
Definition alt (P Q : lang) : lang := fun ls => P ls \/ Q ls.
Definition cat (P Q : lang) : lang := fun ls => exists a b, P a /\ Q b /\ ls = a ++ b.
Definition maybe (P : lang) : lang := fun ls => ls = [] \/ P ls.
Inductive star (P : lang) : lang :=
| star_none : star P []
| star_more a b : P a -> star P b -> star P (a ++ b).

(** AnyElement ::= [Element]* | SmoothingGroup [Element]* *)
Definition AnyElement : lang := alt (star (single Element)) (cat (single SmoothingGroup) (star (single Element))).

(** Group ::= GroupName [AnyVertex | AnyElement]* *)
Definition Group : lang := cat (single GroupName) (star (alt (single AnyVertex) AnyElement)).

(** ObjectName ::= 'o' String *)
Definition ObjectName (l : line) : Prop := exists w, l = [lit "o"; w] /\ String_ w.

(** ObjectBody ::= [AnyVertex | AnyElement]* [Group]* *)
Definition ObjectBody : lang := cat (star (alt (single AnyVertex) AnyElement)) (star Group).

(** Object ::= ObjectName ObjectBody *)
Definition Object : lang := cat (single ObjectName) ObjectBody.

(** ObjectSet ::= [Object | ObjectBody] [Object]* *)
Definition ObjectSet : lang := cat (maybe (alt Object ObjectBody)) (star Object).

(** * MTL (GRAMMAR.md:75-150) *)

(** Number ::= Digits; Float ::= Number '.' Digits *)
Definition MtlNumber (s : bytes) : Prop := Digits s.
Definition MtlFloat (s : bytes) : Prop := exists a b, MtlNumber a /\ Digits b /\ s = a ++ "." :: b.

(** AmbientComponent, DiffuseComponent, SpecularComponent, EmissiveComponent,
    TransmissionFilter *)
Definition Component (k : string) (l : line) : Prop :=
  exists r g b, MtlFloat r /\ MtlFloat g /\ MtlFloat b /\ l = [lit k; r; g; b].
Definition TransmissionFilter : line -> Prop := Component "Tf".

(** IlluminationModel ::= Illum Number *)
Definition IlluminationModel (l : line) : Prop := exists n, MtlNumber n /\ l = [lit "illum"; n].

(** DissolveComponent, SpecularExponent, OpticalDensity *)
Definition Scalar (k : string) (l : line) : Prop := exists x, MtlFloat x /\ l = [lit k; x].

(** AmbientMap etc. *)
Definition Map (k : string) (l : line) : Prop := exists s, String_ s /\ l = [lit k; s].

(** The alternatives of MaterialProperties.  SpecularExponentMap is defined in
    GRAMMAR.md but not listed there. *)
Definition MaterialProperty (l : line) : Prop :=
  Component "Ka" l \/ Component "Kd" l \/ Component "Ks" l \/ Component "Ke" l \/ TransmissionFilter l \/
  Scalar "d" l \/ IlluminationModel l \/ Scalar "Ns" l \/ Scalar "Ni" l \/
  Map "map_Ka" l \/ Map "map_Kd" l \/ Map "map_Ks" l \/ Map "map_Ke" l \/
  Map "map_Bump" l \/ Map "bump" l \/ Map "disp" l \/ Map "map_d" l \/ Map "decal" l.

(** MtlName ::= NewMtl String *)
Definition MtlName (l : line) : Prop := exists s, String_ s /\ l = [lit "newmtl"; s].

(** Material ::= MtlName MaterialProperties.  The properties may be in any
    order; GRAMMAR.md allows each of them once per pass of the outermost [*],
    so it allows any sequence. *)
Definition Material : lang := cat (single MtlName) (star (single MaterialProperty)).

(** MtlSet ::= [Material]* *)
Definition MtlSet : lang := star Material.

(** * Texts *)

(** One statement per line, one space between words. *)
Definition written (ls : list line) : bytes := unlines (map unwords ls).

(** Numbers in [w] are not negative and below [2^63]. *)
Definition modest (w : bytes) : Prop :=
  ~ In "-" w /\ forall a b c n, w = a ++ b ++ c -> digits b n -> (n < 2 ^ 63)%N.

(** The numbers of elements and smoothing groups are. *)
Definition modest_line (l : line) : Prop :=
  Element l \/ SmoothingGroup l -> Forall modest l.
