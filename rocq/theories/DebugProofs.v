(** The text of [{:?}] determines the value. *)
From Coq Require Import Floats.SpecFloat.
From Verif Require Import ObjTypes DebugModel DebugSpec DebugText DebugNumber FloatSpec FmtSpec FmtProofs FmtText EqSpec ObjModel ObjTop DisplaySpec DisplayProofs.
From Verif Require MtlTypes MtlModel MtlSpec MtlWriteSpec MtlWrite.
Local Open Scope char_scope.
Local Open Scope list_scope.

(** * Texts that show where they end *)

(** What may stand behind the text of a value. *)
Definition stop (c : byte) : bool := existsb (Ascii.eqb c) (lit ", )]}").
Definition stops (r : bytes) : Prop := match r with [] => True | c :: _ => stop c = true end.

Definition unambiguous {A} (P : A -> Prop) (show : A -> bytes) : Prop :=
  forall a b r r', P a -> P b -> stops r -> stops r' -> show a ++ r = show b ++ r' -> a = b /\ r = r'.

Definition opens {A} (show : A -> bytes) : Prop := forall a, exists c t, show a = c :: t /\ stop c = false.

Definition any {A} (a : A) : Prop := True.

Lemma unambiguous_inj : forall A (P : A -> Prop) show a b, unambiguous P show -> P a -> P b -> show a = show b -> a = b.
Proof. intros A P show a b U Ha Hb E. apply (U a b [] []); cbn; auto. now rewrite E. Qed.

Definition solid (t : bytes) : Prop := Forall (fun c => stop c = false) t.

Lemma solid_check : forall t, forallb (fun c => negb (stop c)) t = true -> solid t.
Proof. intros t H. apply Forall_forall. intros c Hc. rewrite forallb_forall in H. apply H in Hc. now apply negb_true_iff. Qed.

Lemma solid_split : forall a b r r', solid a -> solid b -> stops r -> stops r' -> a ++ r = b ++ r' -> a = b /\ r = r'.
Proof.
  induction a as [|c a IH]; intros [|d b] r r' Ha Hb Hr Hr' E; cbn [app] in E; auto.
  - subst r. inversion Hb; subst. change (stop d = true) in Hr. congruence.
  - subst r'. inversion Ha; subst. change (stop c = true) in Hr'. congruence.
  - injection E as -> E. inversion Ha; inversion Hb; subst. destruct (IH b r r') as [-> ->]; auto.
Qed.

Lemma solid_unambiguous : forall A (P : A -> Prop) show, (forall a, P a -> solid (show a)) ->
  (forall a b, P a -> P b -> show a = show b -> a = b) -> unambiguous P show.
Proof.
  intros A P show H I a b r r' Ha Hb Hr Hr' E. apply solid_split in E; auto. destruct E as [E ->]. auto.
Qed.

(** ** Numbers *)

Lemma solid_digits : forall s n, digits s n -> solid s.
Proof.
  induction 1 as [|s n c d _ IH Hc]; [constructor|]. apply Forall_app. split; [exact IH|]. constructor; [|constructor]. destruct Hc; reflexivity.
Qed.

Lemma solid_app : forall a b, solid a -> solid b -> solid (a ++ b).
Proof. intros a b Ha Hb. now apply Forall_app. Qed.

Lemma solid_cons : forall c a, stop c = false -> solid a -> solid (c :: a).
Proof. intros c a Hc Ha. now constructor. Qed.

Lemma solid_sign : forall s neg, sign_text s neg -> solid s.
Proof. intros s neg H. destruct H; repeat (constructor; try reflexivity). Qed.

Lemma solid_number : forall t neg m k e, decimal_text t neg m k e -> solid t.
Proof.
  intros t neg m k e (sg & mt & ex & -> & Hs & Hm & He). apply solid_app; [|apply solid_app].
  - eapply solid_sign; eauto.
  - destruct Hm as [ds m _ H|a b m _ H]; [eapply solid_digits; eauto|].
    apply solid_digits in H. apply Forall_app in H. destruct H. apply solid_app; auto. now apply solid_cons.
  - destruct He as [|c s neg' ds n Hc H1 _ H2]; [constructor|]. apply solid_cons; [destruct Hc; subst; reflexivity|].
    apply solid_app; [eapply solid_sign; eauto|eapply solid_digits; eauto].
Qed.

Lemma unambiguous_f64 : forall ch, unambiguous is_f64 (debug_f64 ch).
Proof.
  intros ch. apply solid_unambiguous.
  - intros [s|s| |s m e] H; [destruct s; now apply solid_check|destruct s; now apply solid_check|now apply solid_check|].
    destruct (debug_f64_text ch s m e H) as (d & k & e' & Ht & _). eapply solid_number; eauto.
  - intros a b Ha Hb E. apply (f_equal parse_f64) in E. rewrite !debug_f64_read in E by auto. congruence.
Qed.

Lemma show_N_inj : forall a b, show_N a = show_N b -> a = b.
Proof.
  intros a b E. pose proof (show_N_digits a) as Ha. pose proof (show_N_digits b) as Hb. rewrite E in Ha.
  apply NumberProofs.digits_val_digits in Ha, Hb. congruence.
Qed.

Lemma unambiguous_N : unambiguous any debug_N.
Proof.
  apply solid_unambiguous; [intros a _; eapply solid_digits; apply show_N_digits|intros a b _ _; apply show_N_inj].
Qed.

Lemma unambiguous_nat : unambiguous any debug_nat.
Proof.
  apply solid_unambiguous; [intros a _; eapply solid_digits; apply show_N_digits|].
  intros a b _ _ E. apply show_N_inj in E. lia.
Qed.

Lemma opens_nat : opens debug_nat.
Proof.
  intros a. unfold debug_nat, show_nat. pose proof (solid_digits _ _ (show_N_digits (N.of_nat a))) as H.
  pose proof (show_N_some (N.of_nat a)) as K. destruct (show_N (N.of_nat a)) as [|c t]; [congruence|]. inversion H; subst. eauto.
Qed.

(** ** Strings *)

Lemma unambiguous_str : forall ch, unambiguous any (debug_str ch).
Proof.
  intros ch a b r r' _ _ _ _ E. destruct (debug_str_literal ch a) as (t & Et & Ht). destruct (debug_str_literal ch b) as (t' & Et' & Ht').
  rewrite Et, Et' in E. cbn [app] in E. injection E as E. rewrite <- !app_assoc in E. cbn [app] in E. eapply literal_unique; eauto.
Qed.

Lemma opens_str : forall ch, opens (debug_str ch).
Proof. intros ch a. eexists _, _. split; reflexivity. Qed.

(** ** Lists *)

Lemma separated_cons : forall s l, separated (s :: l) = s ++ match l with [] => [] | _ => lit ", " ++ separated l end.
Proof. intros s [|t l]; [now rewrite app_nil_r|reflexivity]. Qed.

Lemma stops_rest : forall (l : list bytes) r, stops (match l with [] => [] | _ => lit ", " ++ separated l end ++ "]" :: r).
Proof. intros [|s l] r; reflexivity. Qed.

Lemma unambiguous_items : forall A (P : A -> Prop) show, unambiguous P show -> opens show ->
  forall l l' r r', Forall P l -> Forall P l' ->
  separated (map show l) ++ "]" :: r = separated (map show l') ++ "]" :: r' -> l = l' /\ r = r'.
Proof.
  intros A P show U O. induction l as [|x l IH]; intros [|y l'] r r' Hl Hl' E; cbn [map] in E.
  - cbn in E. injection E as ->. auto.
  - exfalso. rewrite separated_cons in E. destruct (O y) as (c & t & Ey & Hc). rewrite Ey in E. cbn [app separated] in E. injection E as <- _. discriminate.
  - exfalso. rewrite separated_cons in E. destruct (O x) as (c & t & Ex & Hc). rewrite Ex in E. cbn [app separated] in E. injection E as -> _. discriminate.
  - inversion Hl; inversion Hl'; subst. rewrite !separated_cons, <- !app_assoc in E.
    apply U in E; auto using stops_rest. destruct E as [-> E].
    destruct l as [|x' l], l' as [|y' l']; cbn [map app] in E; try discriminate E.
    + injection E as ->. auto.
    + change (separated (show x' :: map show l)) with (separated (map show (x' :: l))) in E.
      change (separated (show y' :: map show l')) with (separated (map show (y' :: l'))) in E.
      rewrite <- !app_assoc in E. apply app_inv_head in E. apply IH in E; auto. destruct E as [-> ->]. auto.
Qed.

Lemma unambiguous_vec : forall A (P : A -> Prop) show, unambiguous P show -> opens show -> unambiguous (Forall P) (debug_vec show).
Proof.
  intros A P show U O a b r r' Ha Hb _ _ E. unfold debug_vec in E. rewrite <- !app_assoc in E. apply app_inv_head in E.
  eapply unambiguous_items; eauto.
Qed.

Lemma unambiguous_vec_any : forall A (show : A -> bytes), unambiguous any show -> opens show -> unambiguous any (debug_vec show).
Proof.
  intros A show U O a b r r' _ _. apply (unambiguous_vec _ _ _ U O a b r r'); apply Forall_forall; intros; exact I.
Qed.

(** ** Structs and enums *)

Definition option_P {A} (P : A -> Prop) (o : option A) : Prop := match o with Some a => P a | None => True end.

Ltac spread E :=
  cbv beta iota delta [debug_tuple debug_struct debug_unit debug_field map separated fst snd] in E; rewrite <- ?app_assoc in E.
Ltac differ E := cbv beta iota delta [debug_tuple debug_struct debug_unit lit list_ascii_of_string app] in E; discriminate E.

(** One field: [U] says that its text shows where it ends. *)
Ltac part E U :=
  repeat apply app_inv_head in E;
  apply U in E; [let K := fresh "K" in destruct E as [K E]; try subst|try exact I; auto|try exact I; auto|try reflexivity; auto|try reflexivity; auto].
Ltac last_field E := repeat apply app_inv_head in E; subst; auto.

Lemma unambiguous_option : forall A (P : A -> Prop) show, unambiguous P show -> unambiguous (option_P P) (debug_option show).
Proof.
  intros A P show U [a|] [b|] r r' Ha Hb Hr Hr' E; cbn [debug_option] in E; try differ E.
  - spread E. part E U. last_field E.
  - last_field E.
Qed.

(** * The types of the crate *)

Ltac opened := intros a; eexists _, _; split; reflexivity.

Definition vertex_numbers (v : vertex) : list f64 := [vx v; vy v; vz v; vw v].
Definition texture_numbers (v : texture_vertex) : list f64 := [tu v; tv v; tw v].
Definition normal_numbers (v : normal_vertex) : list f64 := [nx v; ny v; nz v].
Definition valid {A} (numbers : A -> list f64) (a : A) : Prop := Forall is_f64 (numbers a).

Ltac numbers := repeat match goal with H : valid _ _ |- _ => unfold valid, vertex_numbers, texture_numbers, normal_numbers, color_numbers in H
                | H : Forall is_f64 (_ :: _) |- _ => inversion_clear H | H : Forall is_f64 [] |- _ => clear H end.

Lemma unambiguous_vertex : forall ch, unambiguous (valid vertex_numbers) (debug_vertex ch).
Proof.
  intros ch [x y z w] [x' y' z' w'] r r' Ha Hb Hr Hr' E. unfold debug_vertex in E. spread E. numbers. cbn [vx vy vz vw] in *.
  do 4 part E (unambiguous_f64 ch). last_field E.
Qed.

Lemma unambiguous_texture : forall ch, unambiguous (valid texture_numbers) (debug_texture_vertex ch).
Proof.
  intros ch [x y z] [x' y' z'] r r' Ha Hb Hr Hr' E. unfold debug_texture_vertex in E. spread E. numbers. cbn [tu tv tw] in *.
  do 3 part E (unambiguous_f64 ch). last_field E.
Qed.

Lemma unambiguous_normal : forall ch, unambiguous (valid normal_numbers) (debug_normal_vertex ch).
Proof.
  intros ch [x y z] [x' y' z'] r r' Ha Hb Hr Hr' E. unfold debug_normal_vertex in E. spread E. numbers. cbn [nx ny nz] in *.
  do 3 part E (unambiguous_f64 ch). last_field E.
Qed.

Lemma unambiguous_index : unambiguous any debug_vtn_index.
Proof.
  intros [v|v t|v n|v t n] [v'|v' t'|v' n'|v' t' n'] r r' _ _ Hr Hr' E; cbn [debug_vtn_index] in E; try differ E; spread E.
  - part E unambiguous_nat. last_field E.
  - do 2 part E unambiguous_nat. last_field E.
  - do 2 part E unambiguous_nat. last_field E.
  - do 3 part E unambiguous_nat. last_field E.
Qed.

Lemma unambiguous_element : unambiguous any debug_element.
Proof.
  intros [a|a b|a b c] [a'|a' b'|a' b' c'] r r' _ _ Hr Hr' E; cbn [debug_element] in E; try differ E; spread E.
  - part E unambiguous_index. last_field E.
  - do 2 part E unambiguous_index. last_field E.
  - do 3 part E unambiguous_index. last_field E.
Qed.

Lemma opens_element : opens debug_element.
Proof. intros [a|a b|a b c]; eexists _, _; split; reflexivity. Qed.

Lemma unambiguous_triple : forall ch, unambiguous
  (fun t => match t with
            | TripleV v => valid vertex_numbers v
            | TripleVT v t => valid vertex_numbers v /\ valid texture_numbers t
            | TripleVN v n => valid vertex_numbers v /\ valid normal_numbers n
            | TripleVTN v t n => valid vertex_numbers v /\ valid texture_numbers t /\ valid normal_numbers n
            end) (debug_vtn_triple ch).
Proof.
  intros ch [v|v t|v n|v t n] [v'|v' t'|v' n'|v' t' n'] r r' Ha Hb Hr Hr' E; cbn [debug_vtn_triple] in E; try differ E; spread E.
  - part E (unambiguous_vertex ch). last_field E.
  - destruct Ha, Hb. part E (unambiguous_vertex ch). part E (unambiguous_texture ch). last_field E.
  - destruct Ha, Hb. part E (unambiguous_vertex ch). part E (unambiguous_normal ch). last_field E.
  - destruct Ha as (? & ? & ?), Hb as (? & ? & ?). part E (unambiguous_vertex ch). part E (unambiguous_texture ch). part E (unambiguous_normal ch). last_field E.
Qed.

Lemma unambiguous_group : forall ch, unambiguous any (debug_group ch).
Proof. intros ch a b r r' _ _ Hr Hr' E. unfold debug_group in E. spread E. part E (unambiguous_str ch). last_field E. Qed.

Lemma unambiguous_smoothing : unambiguous any debug_smoothing_group.
Proof. intros a b r r' _ _ Hr Hr' E. unfold debug_smoothing_group in E. spread E. part E unambiguous_N. last_field E. Qed.

Definition unambiguous_nats := unambiguous_vec_any _ _ unambiguous_nat opens_nat.

Lemma unambiguous_entry : unambiguous any debug_shape_entry.
Proof.
  intros [e g s] [e' g' s'] r r' _ _ Hr Hr' E. unfold debug_shape_entry in E. spread E. cbn [se_element se_groups se_smoothing_group] in E.
  part E unambiguous_nat. part E unambiguous_nats. part E unambiguous_nat. last_field E.
Qed.

Lemma unambiguous_name : forall ch, unambiguous any (debug_option (debug_str ch)).
Proof. intros ch [a|] [b|] r r' _ _; apply (unambiguous_option _ _ _ (unambiguous_str ch)); exact I. Qed.

Lemma unambiguous_geometry : forall ch, unambiguous any (debug_geometry ch).
Proof.
  intros ch [m s] [m' s'] r r' _ _ Hr Hr' E. unfold debug_geometry in E. spread E. cbn [material_name shapes] in E.
  part E (unambiguous_name ch). part E unambiguous_nats. last_field E.
Qed.

Lemma opens_vertex : forall ch, opens (debug_vertex ch). Proof. intros ch. opened. Qed.
Lemma opens_texture : forall ch, opens (debug_texture_vertex ch). Proof. intros ch. opened. Qed.
Lemma opens_normal : forall ch, opens (debug_normal_vertex ch). Proof. intros ch. opened. Qed.
Lemma opens_group : forall ch, opens (debug_group ch). Proof. intros ch. opened. Qed.
Lemma opens_smoothing : opens debug_smoothing_group. Proof. opened. Qed.
Lemma opens_entry : opens debug_shape_entry. Proof. opened. Qed.
Lemma opens_geometry : forall ch, opens (debug_geometry ch). Proof. intros ch. opened. Qed.
Lemma opens_object : forall ch, opens (debug_object ch). Proof. intros ch. opened. Qed.
Lemma opens_material : forall ch, opens (debug_material ch). Proof. intros ch. opened. Qed.

Lemma valid_flat : forall A (numbers : A -> list f64) l, Forall is_f64 (flat_map numbers l) -> Forall (valid numbers) l.
Proof.
  intros A numbers l. induction l as [|a l IH]; intros H; [constructor|]. cbn [flat_map] in H. apply Forall_app in H. destruct H. constructor; auto.
Qed.

Lemma unambiguous_object : forall ch, unambiguous (valid object_numbers) (debug_object ch).
Proof.
  intros ch [n v t m g s e h o] [n' v' t' m' g' s' e' h' o'] r r' Ha Hb Hr Hr' E. unfold debug_object in E. spread E.
  cbn [name vertex_set texture_vertex_set normal_vertex_set group_set smoothing_group_set element_set shape_set geometry_set] in E.
  unfold valid, object_numbers in Ha, Hb. cbn [vertex_set texture_vertex_set normal_vertex_set] in Ha, Hb.
  apply Forall_app in Ha, Hb. destruct Ha as [Ha1 Ha], Hb as [Hb1 Hb]. apply Forall_app in Ha, Hb. destruct Ha as [Ha2 Ha3], Hb as [Hb2 Hb3].
  apply (valid_flat _ vertex_numbers) in Ha1, Hb1. apply (valid_flat _ texture_numbers) in Ha2, Hb2. apply (valid_flat _ normal_numbers) in Ha3, Hb3.
  part E (unambiguous_str ch).
  part E (unambiguous_vec _ _ _ (unambiguous_vertex ch) (opens_vertex ch)).
  part E (unambiguous_vec _ _ _ (unambiguous_texture ch) (opens_texture ch)).
  part E (unambiguous_vec _ _ _ (unambiguous_normal ch) (opens_normal ch)).
  part E (unambiguous_vec_any _ _ (unambiguous_group ch) (opens_group ch)).
  part E (unambiguous_vec_any _ _ unambiguous_smoothing opens_smoothing).
  part E (unambiguous_vec_any _ _ unambiguous_element opens_element).
  part E (unambiguous_vec_any _ _ unambiguous_entry opens_entry).
  part E (unambiguous_vec_any _ _ (unambiguous_geometry ch) (opens_geometry ch)).
  last_field E.
Qed.

Lemma unambiguous_object_set : forall ch, unambiguous (valid set_numbers) (debug_object_set ch).
Proof.
  intros ch [m o] [m' o'] r r' Ha Hb Hr Hr' E. unfold debug_object_set in E. spread E. cbn [material_libraries objects] in E.
  unfold valid, set_numbers in Ha, Hb. cbn [objects] in Ha, Hb. apply (valid_flat _ object_numbers) in Ha, Hb.
  part E (unambiguous_vec_any _ _ (unambiguous_str ch) (opens_str ch)).
  part E (unambiguous_vec _ _ _ (unambiguous_object ch) (opens_object ch)). last_field E.
Qed.

Lemma unambiguous_kind : unambiguous any debug_error_kind.
Proof.
  apply solid_unambiguous; [intros [] _; now apply solid_check|]. intros [] [] _ _ E; reflexivity || discriminate E.
Qed.

Lemma unambiguous_mtl_kind : unambiguous any debug_mtl_error_kind.
Proof.
  apply solid_unambiguous; [intros [] _; now apply solid_check|]. intros [] [] _ _ E; reflexivity || discriminate E.
Qed.

Lemma unambiguous_error : forall K (kind : K -> bytes) ch, unambiguous any kind -> unambiguous any (debug_parse_error kind ch).
Proof.
  intros K kind ch U [l k m] [l' k' m'] r r' _ _ Hr Hr' E. unfold debug_parse_error in E. spread E. cbn [err_line_number err_kind err_message] in E.
  part E unambiguous_nat. part E U. part E (unambiguous_str ch). last_field E.
Qed.

(** ** src/mtl.rs *)

Lemma unambiguous_color : forall ch, unambiguous (valid color_numbers) (debug_color ch).
Proof.
  intros ch [x y z] [x' y' z'] r r' Ha Hb Hr Hr' E. unfold debug_color in E. spread E. numbers. cbn [MtlTypes.color_r MtlTypes.color_g MtlTypes.color_b] in *.
  do 3 part E (unambiguous_f64 ch). last_field E.
Qed.

Lemma unambiguous_illumination : unambiguous any debug_illumination.
Proof.
  apply solid_unambiguous; [intros [] _; now apply solid_check|]. intros [] [] _ _ E; reflexivity || discriminate E.
Qed.

Lemma unambiguous_material : forall ch, unambiguous (valid material_numbers) (debug_material ch).
Proof.
  intros ch a b r r' Ha Hb Hr Hr' E. unfold debug_material in E. spread E. unfold valid, material_numbers in Ha, Hb.
  apply Forall_app in Ha, Hb. destruct Ha as [Ha1 Ha], Hb as [Hb1 Hb]. apply Forall_app in Ha, Hb. destruct Ha as [Ha2 Ha], Hb as [Hb2 Hb].
  apply Forall_app in Ha, Hb. destruct Ha as [Ha3 Ha], Hb as [Hb3 Hb]. apply Forall_app in Ha, Hb. destruct Ha as [Ha4 Ha], Hb as [Hb4 Hb].
  apply Forall_app in Ha, Hb. destruct Ha as [Ha5 Ha], Hb as [Hb5 Hb]. numbers.
  destruct a as [n c1 c2 c3 c4 s d o i m1 m2 m3 m4 m5 m6 m7 m8 m9], b as [n' c1' c2' c3' c4' s' d' o' i' m1' m2' m3' m4' m5' m6' m7' m8' m9'].
  cbn [MtlTypes.name MtlTypes.color_ambient MtlTypes.color_diffuse MtlTypes.color_specular MtlTypes.color_emissive MtlTypes.specular_exponent
       MtlTypes.dissolve MtlTypes.optical_density MtlTypes.illumination_model MtlTypes.map_ambient MtlTypes.map_diffuse MtlTypes.map_specular
       MtlTypes.map_emissive MtlTypes.map_specular_exponent MtlTypes.map_bump MtlTypes.map_displacement MtlTypes.map_dissolve MtlTypes.map_decal] in *.
  assert (Ho : option_P is_f64 o) by (destruct o; [inversion Ha; auto|exact I]).
  assert (Ho' : option_P is_f64 o') by (destruct o'; [inversion Hb; auto|exact I]).
  part E (unambiguous_str ch). do 4 part E (unambiguous_color ch). do 2 part E (unambiguous_f64 ch).
  part E (unambiguous_option _ _ _ (unambiguous_f64 ch)). part E unambiguous_illumination.
  do 9 part E (unambiguous_name ch). last_field E.
Qed.

Lemma unambiguous_material_set : forall ch, unambiguous (valid materials_numbers) (debug_material_set ch).
Proof.
  intros ch [m] [m'] r r' Ha Hb Hr Hr' E. unfold debug_material_set in E. spread E. cbn [MtlTypes.materials] in E.
  unfold valid, materials_numbers in Ha, Hb. cbn [MtlTypes.materials] in Ha, Hb. apply (valid_flat _ material_numbers) in Ha, Hb.
  part E (unambiguous_vec _ _ _ (unambiguous_material ch) (opens_material ch)). last_field E.
Qed.

(** ** Results *)

Lemma outcome_same : forall K A (P : A -> Prop) show (kind : K -> bytes) ch t a b, unambiguous P show -> unambiguous any kind ->
  (forall x, a = Ok x \/ b = Ok x -> P x) -> debug_outcome show kind ch a = Some t -> debug_outcome show kind ch b = Some t -> a = b.
Proof.
  intros K A P show kind ch t a b U Uk H Ea Eb.
  destruct a as [x|e|p|], b as [y|f|q|]; cbn [debug_outcome] in Ea, Eb; try discriminate Ea; try discriminate Eb; injection Ea as Ea; injection Eb as Eb;
    rewrite <- Eb in Ea; clear t Eb; try differ Ea; spread Ea.
  - part Ea U. reflexivity.
  - part Ea (unambiguous_error _ _ ch Uk). reflexivity.
Qed.

Lemma parsed_valid : forall dbg input set, fits input -> ObjModel.parse dbg input = Ok set -> valid set_numbers set.
Proof.
  intros dbg input set Hf H. unfold valid, set_numbers. apply Forall_flat_map, Forall_forall. intros ob Hob.
  destruct (parsed_f64 _ _ _ _ Hf H Hob) as (F1 & F2 & F3). unfold object_numbers.
  rewrite !Forall_app. repeat split; apply Forall_flat_map.
  - eapply Forall_impl; [|exact F1]. intros v (? & ? & ? & ?). auto.
  - eapply Forall_impl; [|exact F2]. intros v (? & ? & ?). auto.
  - eapply Forall_impl; [|exact F3]. intros v (? & ? & ?). auto.
Qed.

Lemma parsed_materials_valid : forall input set, MtlModel.parse input = Ok set -> valid materials_numbers set.
Proof.
  intros input set H. unfold valid, materials_numbers. apply Forall_flat_map. destruct (MtlWrite.parsed_tokens _ _ (fun _ => True) H (fun _ _ _ _ => I)) as [F _].
  eapply Forall_impl; [|exact F]. intros m (C & H1 & H2 & H3). unfold material_numbers, color_numbers.
  pose proof (C MtlSpec.Ka) as C1. pose proof (C MtlSpec.Kd) as C2. pose proof (C MtlSpec.Ks) as C3. pose proof (C MtlSpec.Ke) as C4.
  destruct C1 as (? & ? & ?), C2 as (? & ? & ?), C3 as (? & ? & ?), C4 as (? & ? & ?).
  rewrite !Forall_app. repeat split; auto. destruct (MtlTypes.optical_density m) as [x|]; [|constructor]. constructor; auto.
Qed.

Theorem obj_debug_same : forall ch dbg dbg' input input' t, fits input -> fits input' ->
  debug_obj_result ch (ObjModel.parse dbg input) = Some t -> debug_obj_result ch (ObjModel.parse dbg' input') = Some t ->
  ObjModel.parse dbg input = ObjModel.parse dbg' input'.
Proof.
  intros ch dbg dbg' input input' t Hf Hf'. apply outcome_same with (P := valid set_numbers).
  - apply unambiguous_object_set.
  - apply unambiguous_kind.
  - intros x [E|E]; [exact (parsed_valid _ _ _ Hf E)|exact (parsed_valid _ _ _ Hf' E)].
Qed.

Theorem mtl_debug_same : forall ch input input' t,
  debug_mtl_result ch (MtlModel.parse input) = Some t -> debug_mtl_result ch (MtlModel.parse input') = Some t ->
  MtlModel.parse input = MtlModel.parse input'.
Proof.
  intros ch input input' t. apply outcome_same with (P := valid materials_numbers).
  - apply unambiguous_material_set.
  - apply unambiguous_mtl_kind.
  - intros x [E|E]; eapply parsed_materials_valid; eauto.
Qed.
