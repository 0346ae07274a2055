(** Tactics that check what an MTL text says, step by step, and an example. *)
From Verif Require Import MtlSpec LexerProofs ExampleText.
Local Open Scope list_scope.

Ltac mtl_statement :=
  lazymatch goal with
  | |- says (SetColor ?f _) _ => apply (says_color f); vm_compute; reflexivity
  | |- says (SetNumber ?f _) _ => apply (says_number f); vm_compute; reflexivity
  | |- says (SetIllum _) _ => eapply says_illum; [vm_compute; reflexivity|constructor]
  | |- says (SetMap _ _) _ => apply says_map; constructor
  end.

(** The tokens in front of the end or the next [newmtl] belong to the material. *)
Ltac mtl_settings :=
  lazymatch goal with
  | |- says_settings [] ?ts =>
      first [ apply settings_end | apply settings_blank; mtl_settings ]
  | |- says_settings (SetColor _ _ :: _) (?w :: ?r :: ?g :: ?b :: ?ts) =>
      first [ apply settings_blank; mtl_settings | refine (settings_more _ [w; r; g; b] _ ts _ _); [mtl_statement|mtl_settings] ]
  | |- says_settings _ (?w :: ?t :: ?ts) =>
      first [ apply settings_blank; mtl_settings | refine (settings_more _ [w; t] _ ts _ _); [mtl_statement|mtl_settings] ]
  end.

(** The tokens up to the next [newmtl] that starts a material. *)
Ltac split_material ts :=
  lazymatch ts with
  | [] => constr:((@nil bytes, @nil bytes))
  | ?t :: ?ts' =>
      let e := eval vm_compute in (if list_eq_dec Ascii.ascii_dec t (lit "newmtl") then true else false) in
      lazymatch e with
      | true => constr:((@nil bytes, ts))
      | false => lazymatch split_material ts' with (?a, ?b) => constr:((t :: a, b)) end
      end
  end.

Ltac mtl_materials :=
  lazymatch goal with
  | |- says_materials [] _ => apply materials_end
  | |- says_materials _ (_ :: ?n :: ?ts) =>
      lazymatch split_material ts with
      | (?a, ?b) => refine (materials_more n _ a _ b _ _); [mtl_settings|mtl_materials]
      end
  end.

Ltac mtl_blank k :=
  first [ exists k; eexists; split; [reflexivity|]; mtl_materials | mtl_blank (S k) ].

Ltac mtl_says :=
  lazymatch goal with
  | |- text_says ?t ?f => exists (lex t); split; [apply lex_tokenizes|];
      let ts := eval vm_compute in (lex t) in change (says_file f ts); mtl_blank 0
  end.

Definition mtl_demo : bytes := text
  "# two materials||newmtl red|Ka 1 0 0|Kd .5 0 0|Ks 1 1 1|Kd 0.25 0 0 # again|Ns 10|illum 1|map_Kd red.png|newmtl glass Ni 1.5 d 0.1 bump b.png map_Bump c.png||".

Definition num (s : string) : f64 := match RustStd.parse_f64 (lit s) with Some x => x | None => f64_zero end.

Definition col (r g b : string) : color := mkColor (num r) (num g) (num b).

Definition mtl_demo_file : mtl_file :=
  [(lit "red",
    [SetColor Ka (col "1" "0" "0"); SetColor Kd (col "0.5" "0" "0"); SetColor Ks (col "1" "1" "1"); SetColor Kd (col "0.25" "0" "0");
     SetNumber Ns (num "10"); SetIllum AmbientDiffuse; SetMap MapKd (lit "red.png")]);
   (lit "glass",
    [SetNumber Ni (num "1.5"); SetNumber D (num "0.1"); SetMap MapBump (lit "b.png"); SetMap MapBump (lit "c.png")])].

Example mtl_demo_says : text_says mtl_demo mtl_demo_file.
Proof. unfold mtl_demo_file, col. mtl_says. Qed.
