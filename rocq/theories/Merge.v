(** Reading two files one after the other. *)
From Verif Require Import MtlModel MtlSpec LexerProofs TextProofs MtlTop MtlFacts.
Local Open Scope list_scope.

Lemma materials_app : forall f ts f' ts', says_materials f ts -> says_materials f' ts' ->
  says_materials (f ++ f') (ts ++ ts').
Proof.
  intros f ts f' ts' H H'. induction H as [|n ss s f t Hs H IH]; cbn; auto.
  rewrite <- app_assoc. now constructor.
Qed.

Lemma settings_blanks : forall k ss ts, says_settings ss ts -> says_settings ss (ts ++ repeat nl k).
Proof.
  intros k ss ts H. rewrite <- (app_nil_r ss). apply settings_app; auto.
  clear H. induction k; cbn; [constructor|now constructor].
Qed.

Lemma materials_blanks : forall k f ts, says_materials f ts -> f <> [] -> says_materials f (ts ++ repeat nl k).
Proof.
  intros k f ts H. induction H as [|n ss s f t Hs H IH]; intro Hf; [congruence|].
  destruct f as [|m f].
  - inversion H; subst. rewrite app_nil_r. replace ((lit "newmtl" :: n :: s) ++ repeat nl k)
      with (lit "newmtl" :: n :: (s ++ repeat nl k) ++ []) by (cbn; now rewrite app_nil_r).
    constructor; [now apply settings_blanks|constructor].
  - cbn [app]. rewrite <- app_assoc. constructor; auto. apply IH. discriminate.
Qed.

Lemma file_app : forall f ts f' ts', says_file f ts -> says_file f' ts' -> says_file (f ++ f') (ts ++ nl :: ts').
Proof.
  intros f ts f' ts' (n & t & -> & H) (n' & t' & -> & H').
  destruct f as [|m f].
  - inversion H; subst. exists (n + S n'), t'. split; [|exact H'].
    rewrite app_nil_r, repeat_app, <- app_assoc. reflexivity.
  - exists n, ((t ++ repeat nl (S n')) ++ t'). split.
    + rewrite <- !app_assoc. reflexivity.
    + apply materials_app; auto. apply materials_blanks; auto. discriminate.
Qed.

Theorem concat_materials : forall a b A B, parse a = Ok A -> parse b = Ok B ->
  parse (a ++ LF :: b) = Ok (mkMaterialSet (materials A ++ materials B)).
Proof.
  intros a b A B Ha Hb.
  destruct (parsed_says _ _ Ha) as (f & (ts & Ht & Hs) & ->).
  destruct (parsed_says _ _ Hb) as (f' & (ts' & Ht' & Hs') & ->).
  rewrite (parse_says _ (f ++ f')).
  - unfold file_means. cbn. now rewrite map_app.
  - exists (ts ++ nl :: ts'). split; [now apply tokenizes_newline|now apply file_app].
Qed.
