(** Runs of [mtl::parse] over a token list, following MtlSpec.v. *)
From Verif Require Import MtlModel SourceProofs ConsumeProofs LexerProofs TotalProofs MtlSpec.
Local Open Scope list_scope.

Arguments RustStd.parse_f64 : simpl never.
Arguments RustStd.parse_usize : simpl never.

(** * Tokens that are not newlines *)

Lemma float_not_nl : forall t x, float_token t x -> bytes_eqb t nl = false.
Proof. intros t x H. apply bytes_eqb_neq. intros ->. discriminate H. Qed.

Lemma usize_not_nl : forall t n, RustStd.parse_usize t = Some n -> bytes_eqb t nl = false.
Proof. intros t x H. apply bytes_eqb_neq. intros ->. discriminate H. Qed.

(** * Newlines *)

Lemma skip_eq : forall K fuel l ts, length ts < fuel -> exists n rest,
  ts = repeat nl n ++ rest /\ hd_error rest <> Some nl /\
  skip_zero_or_more_newlines (K := K) fuel (list_parser l ts) = (Ok tt, list_parser (l + n) rest).
Proof.
  intros K fuel. unfold skip_zero_or_more_newlines. induction fuel as [|fuel IH]; intros l ts Hl; [lia|].
  destruct ts as [|t ts].
  - exists 0, []. cbn. rewrite Nat.add_0_r. repeat split; auto. discriminate.
  - destruct (bytes_eqb_spec t nl) as [->|Hn].
    + destruct (IH (l + 1) ts) as (n & rest & -> & Hr & E); [cbn in Hl; lia|].
      exists (S n), rest. split; [reflexivity|]. split; auto.
      cbn [loop]. unfold bind at 1. cbn. cbn in E. unfold list_parser in *. rewrite E. do 2 f_equal. lia.
    + exists 0, (t :: ts). split; [reflexivity|]. split; [cbn; congruence|].
      cbn [loop]. unfold bind. cbn. apply bytes_eqb_neq in Hn. rewrite Hn. cbn. now rewrite Nat.add_0_r.
Qed.

Lemma skip_none : forall K fuel l ts, length ts < fuel -> hd_error ts <> Some nl ->
  skip_zero_or_more_newlines (K := K) fuel (list_parser l ts) = (Ok tt, list_parser l ts).
Proof.
  intros K fuel l ts Hl Hn. destruct (skip_eq K fuel l ts Hl) as ([|n] & rest & E & Hr & Es).
  - cbn in E. subst. now rewrite Nat.add_0_r in Es.
  - exfalso. apply Hn. now rewrite E.
Qed.

Lemma skip_nl : forall K fuel l ts, length (nl :: ts) < fuel ->
  skip_zero_or_more_newlines (K := K) fuel (list_parser l (nl :: ts)) =
  skip_zero_or_more_newlines fuel (list_parser (l + 1) ts).
Proof.
  intros K fuel l ts Hl. destruct (skip_eq K fuel l (nl :: ts) Hl) as (n & rest & E & Hr & Es).
  destruct n as [|n]; [cbn in E; subst; destruct Hr; reflexivity|].
  inversion E; subst. rewrite Es.
  destruct (skip_eq K fuel (l + 1) (repeat nl n ++ rest)) as (n' & rest' & E' & Hr' & Es'); [cbn in Hl; lia|].
  rewrite Es'. assert (n = n' /\ rest = rest') as [<- <-].
  { clear - E' Hr Hr'. revert n' E'. induction n as [|n IH]; intros [|n'] E'; cbn in E'; auto.
    - subst. exfalso. apply Hr. reflexivity.
    - subst. exfalso. apply Hr'. reflexivity.
    - inversion E'. destruct (IH n'); auto. }
  do 2 f_equal. lia.
Qed.

(** * Statements *)

Definition apply_setting (m : material) (s : setting) : material :=
  match s with
  | SetColor Ka c => set_color_ambient m c
  | SetColor Kd c => set_color_diffuse m c
  | SetColor Ks c => set_color_specular m c
  | SetColor Ke c => set_color_emissive m c
  | SetNumber Ns x => set_specular_exponent m x
  | SetNumber D x => set_dissolve m x
  | SetNumber Ni x => set_optical_density m (Some x)
  | SetIllum i => set_illumination_model m i
  | SetMap MapKa n => set_map_ambient m (Some n)
  | SetMap MapKd n => set_map_diffuse m (Some n)
  | SetMap MapKs n => set_map_specular m (Some n)
  | SetMap MapKe n => set_map_emissive m (Some n)
  | SetMap MapNs n => set_map_specular_exponent m (Some n)
  | SetMap MapBump n => set_map_bump m (Some n)
  | SetMap Disp n => set_map_displacement m (Some n)
  | SetMap MapD n => set_map_dissolve m (Some n)
  | SetMap Decal n => set_map_decal m (Some n)
  end.

Definition then_continue (fuel : nat) (m : material) : M list_source error_kind (step material material) :=
  skip_zero_or_more_newlines fuel ;;; ret (Continue m).

(** Executes one statement whose keyword is a literal. *)
Ltac exec :=
  cbn [app color_word number_word]; unfold parse_material_body, then_continue,
    parse_ambient_component, parse_diffuse_component, parse_specular_component, parse_emissive_component,
    parse_dissolve_component, parse_specular_exponent, parse_optical_density, parse_illumination_model,
    parse_map_ambient, parse_map_diffuse, parse_map_specular, parse_map_emissive, parse_map_bump,
    parse_map_displacement, parse_map_dissolve, parse_map_decal, parse_map_specular_exponent,
    parse_color, parse_map_name, MtlModel.parse_f64, MtlModel.parse_usize, MtlModel.next_string,
    MtlModel.expect_tag, bind, peek, next, ret, error, list_parser;
  cbn -[skip_zero_or_more_newlines Nat.add show_N app].

Ltac known :=
  repeat match goal with
  | H : float_token ?t _ |- _ => unfold float_token in H
  | H : RustStd.parse_f64 ?t = _ |- context [RustStd.parse_f64 ?t] => rewrite H; cbn -[skip_zero_or_more_newlines Nat.add show_N app]
  | H : RustStd.parse_usize ?t = _ |- context [RustStd.parse_usize ?t] => rewrite H; cbn -[skip_zero_or_more_newlines Nat.add show_N app]
  | H : RustStd.parse_f64 ?t = Some _ |- context [bytes_eqb ?t nl] => rewrite (float_not_nl t _ H)
  | H : RustStd.parse_usize ?t = Some _ |- context [bytes_eqb ?t nl] => rewrite (usize_not_nl t _ H)
  end.

Lemma body_setting : forall fuel m s line l ts, says s line ->
  parse_material_body fuel m (list_parser l (line ++ ts)) =
  then_continue fuel (apply_setting m s) (list_parser (l + count_nl line) ts).
Proof.
  intros fuel m s line l ts H.
  assert (Hf : forall t x, float_token t x -> RustStd.parse_f64 t = Some x) by auto.
  destruct H as [f r g b x y z Hr Hg Hb|f t x Ht|t n i Ht Hi|f w nm Hw].
  - replace (count_nl _) with 0.
    2:{ rewrite !count_nl_cons, (float_not_nl _ _ Hr), (float_not_nl _ _ Hg), (float_not_nl _ _ Hb). destruct f; reflexivity. }
    rewrite Nat.add_0_r. destruct f; exec; known; reflexivity.
  - replace (count_nl _) with 0.
    2:{ rewrite !count_nl_cons, (float_not_nl _ _ Ht). destruct f; reflexivity. }
    rewrite Nat.add_0_r. destruct f; exec; known; reflexivity.
  - replace (count_nl _) with 0.
    2:{ rewrite !count_nl_cons, (usize_not_nl _ _ Ht). reflexivity. }
    rewrite Nat.add_0_r. destruct Hi; exec; known; reflexivity.
  - replace (count_nl _) with (if bytes_eqb nm nl then 1 else 0).
    2:{ rewrite !count_nl_cons. destruct Hw; cbn; destruct (bytes_eqb nm nl); reflexivity. }
    destruct Hw; exec; destruct (bytes_eqb nm nl); rewrite ?Nat.add_0_r; reflexivity.
Qed.

(** * Whole materials *)

(** What is left of [parse_material] at some point. *)
Definition go_on (fuel k : nat) (m : material) : M list_source error_kind material :=
  skip_zero_or_more_newlines fuel ;;; loop k (parse_material_body fuel) m.

Lemma keyword_not_nl : forall s line ts, says s line -> hd_error (line ++ ts) <> Some nl.
Proof.
  intros s line ts H. destruct H as [f r g b x y z Hr Hg Hb|f t x Ht|t n i Ht Hi|f w nm Hw]; cbn.
  - destruct f; discriminate.
  - destruct f; discriminate.
  - discriminate.
  - destruct Hw; discriminate.
Qed.

Lemma go_on_settings : forall fuel ss ts, says_settings ss ts -> forall k m l tail,
  length (ts ++ tail) < fuel -> length (ts ++ tail) < k ->
  exists k', length tail < k' /\
    go_on fuel k m (list_parser l (ts ++ tail)) =
    go_on fuel k' (fold_left apply_setting ss m) (list_parser (l + count_nl ts) tail).
Proof.
  intros fuel ss ts H. induction H as [|ss ts H IH|s line ss ts Hs H IH]; intros k m l tail Hl Hk.
  - exists k. split; auto. cbn [app]. change (count_nl []) with 0. now rewrite Nat.add_0_r.
  - destruct (IH k m (l + 1) tail) as (k' & Hk' & E); [cbn in Hl; lia|cbn in Hk; lia|].
    exists k'. split; auto. rewrite count_nl_cons. change (bytes_eqb nl nl) with true. cbv iota.
    replace (l + (1 + count_nl ts)) with (l + 1 + count_nl ts) by lia. rewrite <- E.
    unfold go_on, bind. cbn [app]. now rewrite skip_nl.
  - assert (Hlen : 1 <= length line) by (destruct Hs; cbn; lia).
    rewrite !app_length in Hl, Hk. rewrite <- app_assoc. destruct k as [|k]; [lia|].
    destruct (IH k (apply_setting m s) (l + count_nl line) tail) as (k' & Hk' & E);
      [rewrite app_length; lia|rewrite app_length; lia|].
    exists k'. split; auto. cbn [fold_left]. rewrite count_nl_app, Nat.add_assoc, <- E.
    unfold go_on. unfold bind at 1. rewrite skip_none; [|rewrite !app_length; lia|eapply keyword_not_nl; eauto].
    cbn [loop]. unfold bind at 1. rewrite (body_setting _ _ _ _ _ _ Hs). unfold then_continue, bind.
    destruct (skip_zero_or_more_newlines fuel _) as [[u|e|x|] p]; reflexivity.
Qed.

(** At the end of a material. *)
Definition at_end (ts : list bytes) : Prop := ts = [] \/ exists ts', ts = lit "newmtl" :: ts'.

Lemma go_on_end : forall fuel k m l ts, length ts < fuel -> length ts < k -> at_end ts ->
  go_on fuel k m (list_parser l ts) = (Ok m, list_parser l ts).
Proof.
  intros fuel k m l ts Hl Hk [->|(ts' & ->)]; destruct k as [|k]; try (cbn in Hk; lia);
    unfold go_on; unfold bind at 1; (rewrite skip_none; [|exact Hl|discriminate]); cbn [loop]; unfold bind at 1; exec; reflexivity.
Qed.

Lemma material_settings : forall fuel name ss ts tail l, says_settings ss ts -> at_end tail ->
  length (lit "newmtl" :: name :: ts ++ tail) < fuel ->
  parse_material fuel (list_parser l (lit "newmtl" :: name :: ts ++ tail)) =
  (Ok (fold_left apply_setting ss (set_name material_new name)),
   list_parser (l + count_nl (lit "newmtl" :: name :: ts)) tail).
Proof.
  intros fuel name ss ts tail l H Ht Hl. cbn [length] in Hl.
  change (parse_material fuel (list_parser l (lit "newmtl" :: name :: ts ++ tail))) with
    (go_on fuel fuel (set_name material_new name)
       (list_parser (if bytes_eqb name nl then l + 1 else l) (ts ++ tail))).
  destruct (go_on_settings fuel ss ts H fuel (set_name material_new name)
    (if bytes_eqb name nl then l + 1 else l) tail) as (k' & Hk & ->); [lia|lia|].
  rewrite go_on_end; auto; [|rewrite app_length in Hl; lia].
  rewrite !count_nl_cons. change (bytes_eqb (lit "newmtl") nl) with false.
  f_equal. f_equal. destruct (bytes_eqb name nl); lia.
Qed.

(** * The loop over the materials *)

Definition mtl_body (fuel : nat) (ms : list material)
  : M list_source error_kind (step (list material) (list material)) :=
  t <- peek ;;
  if is_tok t "newmtl" then
    m <- parse_material fuel ;;
    ret (Continue (ms ++ [m]))
  else ret (Break ms).

Definition mtl_rest (fuel k : nat) (ms : list material) : M list_source error_kind material_set :=
  ms <- loop k (mtl_body fuel) ms ;;
  t <- peek ;;
  match t with
  | Some st => error ExpectedEndOfInput (lit "Expected end of input but got `" ++ st ++ lit "`.")
  | None => ret (mkMaterialSet ms)
  end.

Lemma mtlset_rest : forall fuel p,
  parse_mtlset fuel p = (skip_zero_or_more_newlines fuel ;;; mtl_rest fuel fuel []) p.
Proof. reflexivity. Qed.

Definition run_material (m : bytes * list setting) : material :=
  fold_left apply_setting (snd m) (set_name material_new (fst m)).

Lemma materials_end_at : forall f ts, says_materials f ts -> forall tail, at_end tail -> at_end (ts ++ tail).
Proof. intros f ts H tail Ht. destruct H; cbn; [exact Ht|]. right. eauto. Qed.

Lemma mtl_rest_materials : forall fuel f ts, says_materials f ts -> forall k ms l tail, at_end tail ->
  length (ts ++ tail) < fuel -> length (ts ++ tail) < k ->
  exists k', length tail < k' /\
    mtl_rest fuel k ms (list_parser l (ts ++ tail)) =
    mtl_rest fuel k' (ms ++ map run_material f) (list_parser (l + count_nl ts) tail).
Proof.
  intros fuel f ts H. induction H as [|name ss ts f ts' Hs H IH]; intros k ms l tail Ht Hl Hk.
  - exists k. split; auto. change (count_nl []) with 0. cbn [map app]. now rewrite app_nil_r, Nat.add_0_r.
  - cbn [app] in *. rewrite <- app_assoc in *. cbn [length] in Hl, Hk. rewrite app_length in Hl, Hk.
    destruct k as [|k]; [lia|].
    destruct (IH k (ms ++ [run_material (name, ss)]) (l + count_nl (lit "newmtl" :: name :: ts)) tail Ht)
      as (k' & Hk' & E); [lia|lia|].
    exists k'. split; auto. cbn [map]. rewrite <- app_assoc in E. cbn [app] in E.
    replace (l + count_nl (lit "newmtl" :: name :: ts ++ ts')) with
      (l + count_nl (lit "newmtl" :: name :: ts) + count_nl ts').
    2:{ rewrite !count_nl_cons, count_nl_app. lia. }
    rewrite <- E. unfold mtl_rest. unfold bind at 1 4. cbn [loop]. unfold bind at 1. unfold mtl_body at 1.
    unfold bind at 1, peek at 1. cbn -[parse_material loop Nat.add count_nl app].
    unfold bind at 1.
    pose proof (material_settings fuel name ss ts (ts' ++ tail) l Hs (materials_end_at _ _ H _ Ht)) as Em.
    unfold list_parser, lit in *. cbn [list_ascii_of_string] in *. rewrite Em; [reflexivity|]. cbn [length]. rewrite app_length. lia.
Qed.
