(** A file used in the examples, and what it says. *)
From Verif Require Import ObjModel ObjErrorSpec ObjView LexerProofs ObjAccept ObjUnique ObjTop ExampleText.
Local Open Scope list_scope.

Definition num (s : string) : f64 :=
  match RustStd.parse_f64 (lit s) with Some x => x | None => f64_zero end.

Definition demo : bytes := text
"mtllib a.mtl b.mtl|# two objects|v 0 0 0|v 1 0 0 2|v 1 1 0|v 0 1 0|vt 0.5|vn 0 0 1||g quad left|s 1|usemtl red|f 1//1 2//1 3//1 4//1|o second|v 5 5 5|v 6 6 6|p 5 6|g right|usemtl blue|l 5 6 5|".

Definition demo_first : list statement :=
  [ SVertex (mkVertex (num "0") (num "0") (num "0") (num "1"));
    SVertex (mkVertex (num "1") (num "0") (num "0") (num "2"));
    SVertex (mkVertex (num "1") (num "1") (num "0") (num "1"));
    SVertex (mkVertex (num "0") (num "1") (num "0") (num "1"));
    STexture (mkTextureVertex (num "0.5") (num "0") (num "0"));
    SNormal (mkNormalVertex (num "0") (num "0") (num "1"));
    SGroup [lit "quad"; lit "left"];
    SSmooth 1;
    SUse (lit "red");
    SFace [mkRef 1 None (Some 1); mkRef 2 None (Some 1); mkRef 3 None (Some 1); mkRef 4 None (Some 1)] ].

Definition demo_second : list statement :=
  [ SVertex (mkVertex (num "5") (num "5") (num "5") (num "1"));
    SVertex (mkVertex (num "6") (num "6") (num "6") (num "1"));
    SPoint [5; 6];
    SGroup [lit "right"];
    SUse (lit "blue");
    SLine [mkRef 5 None None; mkRef 6 None None; mkRef 5 None None] ].

Definition demo_file : obj_file :=
  mkObjFile [lit "a.mtl"; lit "b.mtl"] [([], demo_first); (lit "second", demo_second)].

(** ** Tactics that check a reading step by step *)

Ltac token := vm_compute; reflexivity.
Ltac no_token := intros ?; vm_compute; discriminate.

Lemma bad_token : forall base now t, ~ In "/"%char t -> RustStd.parse_isize t = None ->
  forall r, ~ valid_ref base now t r.
Proof.
  intros base now t Hs Hp r [H _]. inversion H as [? ? Hn|a b ? ? Hn Hb|a b c ? ? ? Hn Hb Hc]; subst.
  - unfold number_token in Hn. congruence.
  - apply Hs. apply in_or_app. right. now left.
  - apply Hs. apply in_or_app. right. now left.
Qed.

Ltac optional_number :=
  first [ apply optional_eof | apply optional_given; token | apply optional_other; no_token ].

Ltac not_newline := let H := fresh in intros H; vm_compute in H; intuition discriminate.

(** The names up to the first newline. *)
Ltac name_list ts :=
  lazymatch ts with
  | [] => constr:(@nil bytes)
  | ?t :: ?rest =>
      let t' := eval vm_compute in t in
      let n := eval vm_compute in nl in
      lazymatch constr:((t', n)) with
      | (?x, ?x) => constr:(@nil bytes)
      | _ => let l := name_list rest in constr:(t :: l)
      end
  end.

Ltac whole_line :=
  lazymatch goal with
  | |- reads_line ?ts _ _ =>
      let l := name_list ts in
      first [ refine (line_nl l _ _); not_newline | refine (line_eof l _); not_newline ]
  end.

Ltac part := first [ apply part_absent | apply part_number; token ].

Ltac in_range := repeat split; cbn; auto with arith.

Ltac read_ref :=
  lazymatch goal with
  | |- valid_ref _ _ ?t _ =>
      split;
      [ let l := eval vm_compute in (split_on "/"%char t) in
        lazymatch l with
        | [_] => apply ref_1; token
        | [?a; ?b] => apply (ref_2 a b); [token|part]
        | [?a; ?b; ?c] => apply (ref_3 a b c); [token|part|part]
        end
      | vm_compute; auto 60 with arith ]
  end.

Ltac read_refs :=
  first [ apply refs_eof
        | apply refs_more; [read_ref|read_refs]
        | apply refs_stop; apply bad_token; [not_newline|token] ].

Ltac same_forms := let a := fresh in let b := fresh in let Ha := fresh in let Hb := fresh in
  intros a b Ha Hb; cbn in Ha, Hb; intuition (subst; reflexivity).

Ltac point_list := repeat (apply Forall2_cons; [split; [token|vm_compute; auto 60 with arith]|]); apply Forall2_nil.

Ltac read_statement :=
  first [ apply reads_v; [token|token|token|optional_number]
        | eapply reads_vt; [token|optional_number|optional_number]
        | apply reads_vn; token
        | apply reads_g; whole_line
        | apply reads_s; first [apply smoothing_number; token|apply smoothing_off]
        | apply reads_usemtl
        | eapply reads_p; [whole_line|point_list|discriminate]
        | apply reads_l; [read_refs|cbn; auto with arith|same_forms]
        | apply reads_f; [read_refs|cbn; auto with arith|same_forms] ].

Ltac read_body :=
  first [ apply body_end; first [exact I|reflexivity]
        | apply body_blank; read_body
        | eapply body_statement; [read_statement|cbn [count n_v n_t n_n]; read_body] ].

Ltac read_objects :=
  first [ eapply objects_more; [read_body|cbn [count_all fold_left count n_v n_t n_n]; read_objects]
        | apply objects_end ].

Ltac read_libraries :=
  first [ apply libraries_blank; read_libraries
        | eapply libraries_line; [whole_line|read_libraries]
        | apply libraries_end; first [exact I|split; discriminate] ].

Ltac read_file :=
  first [ eapply file_unnamed; [read_libraries|vm_compute; discriminate|read_body|cbn [count_all fold_left count n_v n_t n_n]; read_objects]
        | eapply file_named; [read_libraries|read_objects] ].

Example demo_says : says demo demo_file.
Proof.
  exists (lex demo). split; [apply lex_tokenizes|].
  let ts := eval vm_compute in (lex demo) in change (lex demo) with ts.
  unfold demo_file, demo_first, demo_second.
  change [lit "a.mtl"; lit "b.mtl"] with ([lit "a.mtl"; lit "b.mtl"] ++ []).
  read_file.
Qed.

Example demo_fits : fits demo.
Proof. vm_compute. discriminate. Qed.

Example demo_parses : exists set, parse true demo = Ok set.
Proof. eexists. vm_compute. reflexivity. Qed.
