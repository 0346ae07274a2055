(** Proofs about the errors of [mtl::parse] and what they say. *)
From Verif Require Import MtlModel MtlMessageSpec LexerProofs MtlFacts.
Local Open Scope list_scope.

Lemma quoted_last : forall a t rest, quoted (a ++ [t]) rest t.
Proof. intros. left. now exists a. Qed.
#[local] Hint Resolve quoted_last : core.

Lemma not_float_explains : forall ts c rest, not_float ts c rest ->
  exists u, ts = u ++ rest /\ forall a, explains (a ++ u) rest c.
Proof.
  intros ts c rest H. destruct H as [|t rest H].
  - exists []. split; [reflexivity|]. intros a. now apply says_end.
  - exists [t]. split; [reflexivity|]. intros a. eapply says_float; auto.
    destruct (RustStd.parse_f64 t) as [x|] eqn:E; [|reflexivity]. now destruct (H x).
Qed.

Lemma setting_explains : forall ts c rest, fails_setting ts c rest ->
  exists read, ts = read ++ rest /\ explains read rest c.
Proof.
  intros ts c rest H.
  destruct H as [f ts c rest H|f r x ts c rest Hr H|f r x g y ts c rest Hr Hg H|f ts c rest H| |t rest H|t n rest H Hn|f w H|t ts Hk Hn Ho].
  1-4: destruct (not_float_explains _ _ _ H) as (u & -> & K).
  - exists ([color_word f] ++ u). auto.
  - exists ([color_word f; r] ++ u). auto.
  - exists ([color_word f; r; g] ++ u). auto.
  - exists ([number_word f] ++ u). auto.
  - exists [lit "illum"]. split; [reflexivity|]. now apply says_end.
  - exists [lit "illum"; t]. split; [reflexivity|]. now apply says_integer.
  - exists [lit "illum"; t]. split; [reflexivity|]. eapply says_illum_number; [reflexivity|exact H|].
    destruct n as [|[p|[p|p|]|]]; try lia.
    + destruct (Hn Ambient). constructor.
    + destruct (Hn AmbientDiffuseSpecular). constructor.
    + destruct (Hn AmbientDiffuse). constructor.
  - exists [w]. split; [reflexivity|]. eapply says_map_end; eauto.
  - exists []. split; [reflexivity|]. apply says_unknown; auto. right. split; [reflexivity|]. now exists ts.
Qed.

Lemma error_explained : forall input e, parse input = Err e ->
  exists x y z tx read rest, input = x ++ y ++ z /\
    tokenizes x tx /\ tokenizes y read /\ tokenizes z rest /\ tokenizes input (tx ++ read ++ rest) /\
    err_line_number e = line_after (x ++ y) /\ explains read rest (err_kind e, err_message e).
Proof.
  intros input e H. destruct (error_place input e H) as (x & y & z & tx & ty & tz & E & T1 & T2 & T3 & T4 & F & L & _).
  exists x, y, z, tx, ty, tz. repeat (split; [assumption|]).
  assert (K : exists read, ty ++ tz = read ++ tz /\ explains read tz (err_kind e, err_message e)).
  { remember (ty ++ tz) as from eqn:E'. remember (err_kind e, err_message e) as c eqn:E''.
    destruct F as [n t rest Hn Ho|f before F|f ts name ss ts' from c rest _ _ F].
    - exists []. split; [reflexivity|]. apply says_not_end; auto. right. split; [reflexivity|]. now exists rest.
    - exists [lit "newmtl"]. split; [reflexivity|]. now apply says_name_end.
    - now apply setting_explains. }
  destruct K as (read & K1 & K2). apply app_inv_tail in K1. now subst.
Qed.

Lemma no_tag_error : forall input e, parse input = Err e -> err_kind e <> ExpectedTagStatement.
Proof.
  intros input e H K. destruct (error_explained _ _ H) as (x & y & z & tx & read & rest & _ & _ & _ & _ & _ & _ & X).
  rewrite K in X. inversion X.
Qed.

(** A text for every kind of error but one. *)
Definition text_for (k : error_kind) : bytes :=
  match k with
  | EndOfFile => lit "newmtl"
  | ExpectedTagStatement => []
  | ExpectedFloat => lit "newmtl a Kd x"
  | ExpectedInteger => lit "newmtl a illum x"
  | ExpectedEndOfInput => lit "Kd 1 1 1"
  | UnknownIlluminationModel => lit "newmtl a illum 3"
  | ErrorParsingMaterial => lit "newmtl a Tr 1"
  end.

Lemma every_kind : forall k, k <> ExpectedTagStatement -> exists input e, parse input = Err e /\ err_kind e = k.
Proof.
  intros k Hk. exists (text_for k).
  destruct k; try congruence; eexists; (split; [vm_compute; reflexivity|reflexivity]).
Qed.
