(** C50 (GRAMMAR.md) and C51 (unknown statements). *)
From Verif Require Import ObjModel ObjWriteSpec MtlModel GrammarSpec ObjTop ObjUnknown GrammarProofs MtlGrammar GrammarCases ExampleText LexerProofs.
Local Open Scope char_scope.
Local Open Scope list_scope.

(** * C50

    GRAMMAR.md says that the parser implements its grammars (GrammarSpec.v).

    True part: a file of the OBJ grammar without [vp] lines, whose indices and
    smoothing groups are not negative and below [2^63], is the writing of some
    [f] (ObjWriteSpec.v); if the references of [f] are in scope and each object
    can be drawn, it is read as [f]. *)
Theorem C50_obj : forall ls, ObjectSet ls -> Forall (fun l => ~ ParameterVertex l) ls -> Forall modest_line ls ->
  fits (written ls) ->
  exists f, file_libraries f = [] /\ writes_file f (line_tokens ls) /\
    (well_formed f -> forall dbg, ObjModel.parse dbg (written ls) = Ok (ObjSpec.file_means f)).
Proof. exact grammar_read. Qed.
Print Assumptions C50_obj.

(** A file of the MTL grammar without [Tf] lines and with illumination models 0,
    1 and 2 is read. *)
Theorem C50_mtl : forall ls, MtlSet ls -> Forall (fun l => ~ TransmissionFilter l) ls ->
  (forall n, In [lit "illum"; n] ls -> exists k, digits n k /\ (k <= 2)%N) ->
  exists f, MtlSpec.says_file f (line_tokens ls) /\ MtlModel.parse (written ls) = Ok (MtlSpec.file_means f).
Proof. exact mtl_grammar_read. Qed.
Print Assumptions C50_mtl.

(** The rest is never accepted. *)
Theorem C50_vp_never : forall dbg ls l set, ObjectSet ls -> In l ls -> ParameterVertex l -> fits (written ls) ->
  ObjModel.parse dbg (written ls) <> Ok set.
Proof. exact parameter_vertex_rejected. Qed.
Print Assumptions C50_vp_never.

Theorem C50_Tf_never : forall ls l set, MtlSet ls -> In l ls -> TransmissionFilter l -> MtlModel.parse (written ls) <> Ok set.
Proof. exact transmission_rejected. Qed.
Print Assumptions C50_Tf_never.

(** So the parsers do not accept all files of the grammars: parameter vertices,
    negative indices and objects without elements; transmission filters and
    illumination models above 2. *)
Theorem C50_obj_refuted :
  exists vp negative empty, ObjectSet vp /\ ObjectSet negative /\ ObjectSet empty /\
    forall dbg, (exists e, ObjModel.parse dbg (written vp) = Err e) /\
                (exists e, ObjModel.parse dbg (written negative) = Err e) /\
                ObjModel.parse dbg (written empty) = Panic PanicIndex.
Proof. exact obj_grammar_refuted. Qed.
Print Assumptions C50_obj_refuted.

Theorem C50_mtl_refuted :
  exists tf illum, MtlSet tf /\ MtlSet illum /\
    (exists e, MtlModel.parse (written tf) = Err e) /\ (exists e, MtlModel.parse (written illum) = Err e).
Proof. exact mtl_grammar_refuted. Qed.
Print Assumptions C50_mtl_refuted.

(** And they accept more: for instance lines with two vertices, numbers without
    a point, [usemtl] and [mtllib]; names that are not Strings, and [map_Ns]. *)
Theorem C50_obj_only_refuted :
  exists short integer material, ~ ObjectSet short /\ ~ ObjectSet integer /\ ~ ObjectSet material /\
    forall dbg, (exists set, ObjModel.parse dbg (written short) = Ok set) /\
                (exists set, ObjModel.parse dbg (written integer) = Ok set) /\
                (exists set, ObjModel.parse dbg (written material) = Ok set).
Proof. exact obj_grammar_only_refuted. Qed.
Print Assumptions C50_obj_only_refuted.

Theorem C50_mtl_only_refuted :
  exists named mapped, ~ MtlSet named /\ ~ MtlSet mapped /\
    (exists set, MtlModel.parse (written named) = Ok set) /\ (exists set, MtlModel.parse (written mapped) = Ok set).
Proof. exact mtl_grammar_only_refuted. Qed.
Print Assumptions C50_mtl_only_refuted.

(** Files that meet the hypotheses of [C50_obj] and [C50_mtl], and what is read. *)
Definition obj_demo : list line :=
  lines_of ("v 1.0 2.0 3.0|v 0.5 -0.5 10.25 1.0|v 0.0 0.0 1.0|vt 0.5|vn 0.0 0.0 1.0|f 1/1/1 2/1/1 3/1/1|g a b2|s 1|" ++
            "l 1/1 2/1 3/1|o second|v 0.0 0.0 0.0|s off|p 4 4").

Example C50_obj_example :
  ObjectSet obj_demo /\ Forall (fun l => ~ ParameterVertex l) obj_demo /\ Forall modest_line obj_demo /\ fits (written obj_demo) /\
  match ObjModel.parse true (written obj_demo) with
  | Ok set => map (fun o => (ObjTypes.name o, ObjTypes.element_set o)) (ObjTypes.objects set)
  | _ => []
  end = [([], [ObjTypes.Face (ObjTypes.VTN 0 0 0) (ObjTypes.VTN 1 0 0) (ObjTypes.VTN 2 0 0);
               ObjTypes.Line (ObjTypes.VT 0 0) (ObjTypes.VT 1 0); ObjTypes.Line (ObjTypes.VT 1 0) (ObjTypes.VT 2 0)]);
         (lit "second", [ObjTypes.Point (ObjTypes.V 0); ObjTypes.Point (ObjTypes.V 0)])].
Proof.
  split; [apply lines_set; vm_compute; reflexivity|]. split; [|split; [|split; [vm_compute; discriminate|vm_compute; reflexivity]]].
  - eapply Forall_impl; [|apply (no_tag "vp"); vm_compute; reflexivity]. intros l Hl (u & v & w & _ & _ & _ & ->). now apply (Hl (u :: v ++ w)).
  - apply modest_lines. vm_compute. reflexivity.
Qed.

Definition mtl_demo : list line :=
  lines_of "newmtl a|Ka 1.0 0.5 0.0|Ns 10.0|illum 2|map_Kd wood|newmtl b2|d 0.75|bump rough".

Example C50_mtl_example :
  MtlSet mtl_demo /\ Forall (fun l => ~ TransmissionFilter l) mtl_demo /\
  (forall n, In [lit "illum"; n] mtl_demo -> exists k, digits n k /\ (k <= 2)%N) /\
  match MtlModel.parse (written mtl_demo) with
  | Ok set => map (fun m => (MtlTypes.name m, MtlTypes.illumination_model m, MtlTypes.map_diffuse m)) (MtlTypes.materials set)
  | _ => []
  end = [(lit "a", MtlTypes.AmbientDiffuseSpecular, Some (lit "wood")); (lit "b2", MtlTypes.AmbientDiffuseSpecular, None)].
Proof.
  split; [apply mtl_lines_set; vm_compute; reflexivity|]. split; [|split; [|vm_compute; reflexivity]].
  - eapply Forall_impl; [|apply (no_tag "Tf"); vm_compute; reflexivity]. intros l Hl (r & g & b & _ & _ & _ & ->). now apply (Hl [r; g; b]).
  - intros n Hn. assert (n = lit "2") as ->.
    { assert (K : forallb (fun l => match l with [k; n] => negb (bytes_eqb k (lit "illum")) || bytes_eqb n (lit "2") | _ => true end) mtl_demo = true)
        by (vm_compute; reflexivity).
      rewrite forallb_forall in K. apply K in Hn. rewrite bytes_eqb_refl in Hn. now apply bytes_eqb_eq. }
    exists 2%N. split; [apply (digits_more [] 0 "2" 2); constructor|discriminate].
Qed.

(** * C51

    The word a line starts with decides: if no statement has it, the file is
    not accepted. *)
Theorem C51_obj : forall dbg input a w b set, fits input -> tokenizes input (a ++ w :: b) -> line_start a -> unknown_word w ->
  ObjModel.parse dbg input <> Ok set.
Proof. exact unknown_rejected. Qed.
Print Assumptions C51_obj.

(** README.md:8: "Any file containing free-form geometry elements will be
    rejected by the parser." *)
Theorem C51_free_form : forall dbg before w after set, fits (before ++ w ++ after) ->
  before = [] \/ (exists before', before = before' ++ [LF]) -> In w free_form -> starts_with (fun c => ~ word_byte c) after ->
  ObjModel.parse dbg (before ++ w ++ after) <> Ok set.
Proof. exact free_form_rejected. Qed.
Print Assumptions C51_free_form.

Theorem C51_mtl : forall input a w b set, tokenizes input (a ++ w :: b) -> line_start a -> mtl_unknown w ->
  MtlModel.parse input <> Ok set.
Proof. exact mtl_unknown_rejected. Qed.
Print Assumptions C51_mtl.

Example C51_example :
  ObjModel.parse true (text "v 1 2 3|p 1|# nothing|surf 0 1 2|") =
    Err (mkParseError 4 ObjTypes.InvalidObjectStatement (lit "Unsupported or invalid object statement `surf`.")) /\
  free_form <> [] /\ starts_with (fun c => ~ word_byte c) (text " 0 1 2|") /\
  (exists e, MtlModel.parse (text "newmtl a|Kd 1 1 1|sharpness 60|") = Err e).
Proof.
  split; [vm_compute; reflexivity|]. split; [discriminate|]. split.
  - intros (H & _). apply H. now left.
  - apply errs_ok. vm_compute. reflexivity.
Qed.

(** Only the first word of a line counts: elsewhere such a word may be a name,
    or may be dropped. *)
Example C51_only_at_start : exists set, ObjModel.parse true (text "o surf|v 1 2 3|v 4 5 6|l 1 2 surf|") = Ok set.
Proof. apply oks_ok. vm_compute. reflexivity. Qed.
