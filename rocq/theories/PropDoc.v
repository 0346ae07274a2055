(** C69: docs/mtl_spec.md, the format specification that comes with the crate.

    DocMtlSpec.v has its statements and what they mean. *)
From Verif Require Import MtlModel DocMtlSpec DocMtl LexerProofs GrammarProofs ExampleText.
Local Open Scope list_scope.

(** A documented file is not misread: if it is accepted, the result is what the
    document says. *)
Theorem C69_meaning : forall input d set, doc_text input d -> documented_file d -> parse input = Ok set ->
  exists f, describes d f /\ set = file_means f.
Proof. exact doc_meaning. Qed.
Print Assumptions C69_meaning.

(** It is accepted if and only if all statements have the supported forms. *)
Theorem C69_accepts_iff : forall input d, doc_text input d -> documented_file d ->
  ((exists set, parse input = Ok set) <-> Forall (fun m => Forall supported (snd m)) d).
Proof. exact doc_accepts. Qed.
Print Assumptions C69_accepts_iff.

(** Not all that [Material] has fields for is accepted: the document lets one
    value stand for a colour of three equal ones. *)
Theorem C69_optional_refuted :
  ~ (forall input d f, doc_text input d -> documented_file d -> describes d f -> parse input = Ok (file_means f)).
Proof.
  intro H.
  destruct (RustStd.parse_f64 (lit "0.5")) as [x|] eqn:Ex; [|vm_compute in Ex; discriminate].
  specialize (H (text "newmtl a|Ka 0.5|") [(lit "a", [Reflectivity Ambient_Ka (RGB (lit "0.5") [])])]
    [(lit "a", [SetColor Ka (mkColor x x x)])]).
  assert (C : exists e, parse (text "newmtl a|Ka 0.5|") = Err e) by (eexists; vm_compute; reflexivity).
  destruct C as (e & C). rewrite C in H. discriminate H.
  - exists [[lit "newmtl"; lit "a"]; [lit "Ka"; lit "0.5"]]. split; [repeat constructor|].
    apply tokenizes_iff. vm_compute. reflexivity.
  - constructor; [|constructor]. split.
    + cbn [fst]. tag.
    + constructor; [|constructor]. constructor; [exists x; exact Ex|constructor|cbn; lia].
  - constructor; [|constructor]. split; [reflexivity|]. constructor; [|constructor].
    now constructor.
Qed.
Print Assumptions C69_optional_refuted.

Ltac number := eexists; vm_compute; reflexivity.

(** A text of statements without blank lines or comments. *)
Ltac doc_lines := repeat first [apply blanks_end | apply blanks_line].

(** Example 4 of the document (lines 937-947), with a blank line, a comment and a map added. *)
Definition shiny_green : doc_file :=
  [(lit "shiny_green",
    [Reflectivity Ambient_Ka (RGB (lit "0.0000") [lit "1.0000"; lit "0.0000"]);
     Reflectivity Specular_Ks (RGB (lit "1.0000") [lit "1.0000"; lit "1.0000"]);
     Exponent (lit "200.0000"); Illum (lit "1"); TextureMap Map_bump [] (lit "leath.mpb")])].

Example C69_accepted_example :
  let input := text "newmtl shiny_green|Ka 0.0000 1.0000 0.0000||Ks 1.0000 1.0000 1.0000|Ns 200.0000 # high|illum 1|bump leath.mpb|" in
  doc_text input shiny_green /\ documented_file shiny_green /\
  Forall (fun m => Forall supported (snd m)) shiny_green /\ exists set, parse input = Ok set.
Proof.
  cbv zeta. split; [|split; [|split]].
  - eexists. split.
    + cbn [file_lines shiny_green flat_map map fst snd app statement_line].
      apply blanks_line, blanks_line, blanks_blank. doc_lines.
    + apply tokenizes_iff. vm_compute. reflexivity.
  - constructor; [|constructor]. split; [cbn [fst]; tag|]. cbn [snd].
    repeat apply Forall_cons; [| | | | |apply Forall_nil].
    + apply doc_rgb; [number| |cbn; lia]. repeat (apply Forall_cons; [number|]). apply Forall_nil.
    + apply doc_rgb; [number| |cbn; lia]. repeat (apply Forall_cons; [number|]). apply Forall_nil.
    + apply doc_exponent. number.
    + eapply doc_illum; [vm_compute; reflexivity|discriminate].
    + apply doc_texture; [apply Forall_nil|tag].
  - constructor; [|constructor]. cbn [snd]. repeat apply Forall_cons; [| | | | |apply Forall_nil].
    + split; [discriminate|reflexivity].
    + split; [discriminate|reflexivity].
    + exact I.
    + eexists. split; [vm_compute; reflexivity|discriminate].
    + reflexivity.
  - eexists. vm_compute. reflexivity.
Qed.

(** After example 12 (lines 1048-1070): a map with options. *)
Definition bumpy_leath : doc_file :=
  [(lit "bumpy_leath",
    [Illum (lit "2");
     TextureMap Map_bump [Values "-s" (lit "1.000") [lit "1.000"; lit "1.000"];
                          Values "-o" (lit "0.000") [lit "0.000"; lit "0.000"];
                          Values "-bm" (lit "1.000") []] (lit "leath.mpb")])].

Example C69_rejected_example :
  let input := text "newmtl bumpy_leath|illum 2|bump -s 1.000 1.000 1.000 -o 0.000 0.000 0.000 -bm 1.000 leath.mpb|" in
  doc_text input bumpy_leath /\ documented_file bumpy_leath /\
  ~ Forall (fun m => Forall supported (snd m)) bumpy_leath /\ exists e, parse input = Err e.
Proof.
  cbv zeta. split; [|split; [|split]].
  - eexists. split.
    + cbn [file_lines bumpy_leath flat_map map fst snd app statement_line]. doc_lines.
    + apply tokenizes_iff. vm_compute. reflexivity.
  - constructor; [|constructor]. split; [cbn [fst]; tag|]. cbn [snd].
    repeat apply Forall_cons; [| |apply Forall_nil].
    + eapply doc_illum; [vm_compute; reflexivity|discriminate].
    + apply doc_texture; [|tag]. repeat apply Forall_cons; [| | |apply Forall_nil].
      * apply ok_three; [cbn; tauto|number| |cbn; lia]. repeat (apply Forall_cons; [number|]). apply Forall_nil.
      * apply ok_three; [cbn; tauto|number| |cbn; lia]. repeat (apply Forall_cons; [number|]). apply Forall_nil.
      * apply ok_one; [cbn; tauto|number].
  - intro H. inversion H as [|? ? K _]. inversion K as [|? ? _ K']. inversion K' as [|? ? B _]. discriminate B.
  - eexists. vm_compute. reflexivity.
Qed.

(** The examples of the document (lines 906-1149): 1 to 4 are accepted, 5 to 16 are rejected. *)
Example doc_examples_accepted :
  forallb (fun t => match parse (text t) with Ok _ => true | _ => false end)
    ["newmtl neon_green|Kd 0.0000 1.0000 0.0000|illum 0|";
     "newmtl flat_green|Ka 0.0000 1.0000 0.0000|Kd 0.0000 1.0000 0.0000|illum 1|";
     "newmtl diss_green|Ka 0.0000 1.0000 0.0000|Kd 0.0000 1.0000 0.0000|d 0.8000|illum 1|";
     "newmtl shiny_green|Ka 0.0000 1.0000 0.0000|Kd 0.0000 1.0000 0.0000|Ks 1.0000 1.0000 1.0000|Ns 200.0000|illum 1|"]%string = true.
Proof. vm_compute. reflexivity. Qed.

Example doc_examples_rejected :
  forallb (fun t => match parse (text t) with Err _ => true | _ => false end)
    ["newmtl green_mirror|Ka 0.0000 1.0000 0.0000|Kd 0.0000 1.0000 0.0000|Ks 0.0000 1.0000 0.0000|Ns 200.0000|illum 3|";
     "newmtl fake_windsh|Ka 0.0000 0.0000 0.0000|Kd 0.0000 0.0000 0.0000|Ks 0.9000 0.9000 0.9000|d 0.1000|Ns 200|illum 4|";
     "newmtl fresnel_blu|Ka 0.0000 0.0000 0.0000|Kd 0.0000 0.0000 0.0000|Ks 0.6180 0.8760 0.1430|Ns 200|illum 5|";
     "newmtl real_windsh|Ka 0.0000 0.0000 0.0000|Kd 0.0000 0.0000 0.0000|Ks 0.0000 0.0000 0.0000|Tf 1.0000 1.0000 1.0000|Ns 200|Ni 1.2000|illum 6|";
     "newmtl fresnel_win|Ka 0.0000 0.0000 1.0000|Kd 0.0000 0.0000 1.0000|Ks 0.6180 0.8760 0.1430|Tf 1.0000 1.0000 1.0000|Ns 200|Ni 1.2000|illum 7|";
     "newmtl tin|Ka spectral tin.rfl|Kd spectral tin.rfl|Ks spectral tin.rfl|Ns 200|illum 3|";
     "newmtl pine_wood|Ka spectral ident.rfl 1|Kd spectral ident.rfl 1|illum 1|map_Ka pine.mpc|map_Kd pine.mpc|";
     "newmtl bumpy_leath|Ka spectral ident.rfl 1|Kd spectral ident.rfl 1|Ks spectral ident.rfl 1|illum 2|map_Ka brown.mpc|map_Kd brown.mpc|map_Ks brown.mpc|bump -bm 2.000 leath.mpb|";
     "newmtl frost_wind|Ka 0.2 0.2 0.2|Kd 0.6 0.6 0.6|Ks 0.1 0.1 0.1|d 1|Ns 200|illum 2|map_d -mm 0.200 0.800 window.mps|";
     "Ka spectral ident.rfl 1|Kd spectral ident.rfl 1|Ks spectral ident.rfl 1|illum 2|map_Ka -o 0.200 0.000 0.000 logo.mpc|map_Kd -o 0.200 0.000 0.000 logo.mpc|map_Ks -o 0.200 0.000 0.000 logo.mpc|";
     "Ka spectral ident.rfl 1|Kd spectral ident.rfl 1|Ks spectral ident.rfl 1|illum 2|map_Ka -s 1.200 1.200 0.000 logo.mpc|map_Kd -s 1.200 1.200 0.000 logo.mpc|map_Ks -s 1.200 1.200 0.000 logo.mpc|";
     "Ka 0 0 0|Kd 0 0 0|Ks .7 .7 .7|illum 1|refl -type sphere chrome.rla|"]%string = true.
Proof. vm_compute. reflexivity. Qed.
