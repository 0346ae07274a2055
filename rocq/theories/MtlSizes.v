(** The length of all names in a material set. *)
From Verif Require Import ObjModel SizeSpec Sizes.
From Verif Require Import MtlModel MtlSpec LexerProofs MtlFacts.
Local Open Scope list_scope.

Definition map_weight (s : setting) : nat := match s with SetMap _ n => length n | _ => 0 end.

Definition opt (o : option bytes) : nat := match o with Some x => length x | None => 0 end.

Lemma opt_last : forall g s (ss : list setting), opt (last_of g (s :: ss)) <= opt (last_of g ss) + opt (g s).
Proof. intros g s ss. cbn [last_of]. destruct (last_of g ss), (g s); cbn; lia. Qed.

Lemma texture_weight : forall m, weight (texture_maps m) =
  opt (map_ambient m) + opt (map_diffuse m) + opt (map_specular m) + opt (map_emissive m) + opt (map_specular_exponent m) +
  opt (map_bump m) + opt (map_displacement m) + opt (map_dissolve m) + opt (map_decal m).
Proof.
  intros m. unfold texture_maps. cbn [flat_map]. rewrite !weight_app.
  assert (K : forall o, weight (match o with Some x => [x] | None => [] end) = opt o) by (intros [x|]; [apply Nat.add_0_r|reflexivity]).
  rewrite !K. change (weight []) with 0. lia.
Qed.

Lemma maps_weight : forall n ss, weight (texture_maps (material_of (n, ss))) <= list_sum (map map_weight ss).
Proof.
  intros n ss. rewrite texture_weight. unfold material_of.
  cbn [fst snd map_ambient map_diffuse map_specular map_emissive map_specular_exponent map_bump map_displacement map_dissolve map_decal].
  induction ss as [|s ss IH]; [cbn; lia|]. cbn [map]. change (list_sum (?x :: ?l)) with (x + list_sum l).
  assert (K : opt (given_map MapKa s) + opt (given_map MapKd s) + opt (given_map MapKs s) + opt (given_map MapKe s) + opt (given_map MapNs s) +
    opt (given_map MapBump s) + opt (given_map Disp s) + opt (given_map MapD s) + opt (given_map Decal s) = map_weight s).
  { destruct s as [f c|f x|i|f m]; try reflexivity. destruct f; cbn; lia. }
  pose proof (opt_last (given_map MapKa) s ss). pose proof (opt_last (given_map MapKd) s ss). pose proof (opt_last (given_map MapKs) s ss).
  pose proof (opt_last (given_map MapKe) s ss). pose proof (opt_last (given_map MapNs) s ss). pose proof (opt_last (given_map MapBump) s ss).
  pose proof (opt_last (given_map Disp) s ss). pose proof (opt_last (given_map MapD) s ss). pose proof (opt_last (given_map Decal) s ss). lia.
Qed.

Lemma settings_weight : forall ss ts, says_settings ss ts -> list_sum (map map_weight ss) <= weight ts.
Proof.
  intros ss ts H. induction H as [|ss ts H IH|s line ss ts Hs H IH]; [cbn; lia|rewrite weight_cons; lia|].
  cbn [map]. change (list_sum (?x :: ?l)) with (x + list_sum l). rewrite weight_app. apply Nat.add_le_mono; [|exact IH].
  destruct Hs; rewrite ?weight_cons; cbn; unfold bytes, byte in *; lia.
Qed.

Lemma materials_weight : forall f ts, says_materials f ts ->
  list_sum (map (fun m => weight (name m :: texture_maps m)) (map material_of f)) <= weight ts.
Proof.
  intros f ts H. induction H as [|n ss ts f ts' Hs H IH]; [cbn; lia|]. cbn [map]. change (list_sum (?x :: ?l)) with (x + list_sum l).
  apply settings_weight in Hs. pose proof (maps_weight n ss). rewrite !weight_cons, weight_app.
  change (name (material_of (n, ss))) with n. lia.
Qed.

Theorem names_length : forall input set, parse input = Ok set ->
  list_sum (map (fun m => weight (name m :: texture_maps m)) (materials set)) <= length input.
Proof.
  intros input set P. apply parsed_says in P. destruct P as (f & (ts & Ht & n & ts' & -> & H) & ->).
  apply tokenizes_weight in Ht. apply materials_weight in H. rewrite weight_app in Ht. cbn [file_means materials]. lia.
Qed.
