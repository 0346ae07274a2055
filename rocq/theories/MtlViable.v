(** What is in front of an error in an MTL text parses. *)
From Verif Require Import LexerProofs ConsumeProofs TextProofs PlaceSpec Lines Viable.
From Verif Require Import MtlModel MtlLineSpec MtlTop MtlTopLines MtlFacts MtlLines.
Local Open Scope list_scope.

Lemma file_more : forall f ts nm ss us, says_file f ts -> says_settings ss us ->
  says_file (f ++ [(nm, ss)]) (ts ++ lit "newmtl" :: nm :: us).
Proof.
  intros f ts nm ss us (n & vs & -> & Hm) Hs. exists n, (vs ++ lit "newmtl" :: nm :: us). rewrite <- app_assoc. split; auto.
  induction Hm as [|nm' ss' us' f' vs' Hs' H IH]; cbn.
  - rewrite <- (app_nil_r us). constructor; auto. constructor.
  - rewrite <- app_assoc. now constructor.
Qed.

Lemma at_file : forall before from c rest, fails_at before from c rest -> exists f, says_file f before.
Proof.
  intros before from c rest H. destruct H as [n t rest H1 H2|f before H|f ts nm ss us from c rest H1 H2 H3].
  - exists [], n, []. split; [now rewrite app_nil_r|constructor].
  - eauto.
  - exists (f ++ [(nm, ss)]). now apply file_more.
Qed.

Theorem error_viable : forall input e, parse input = Err e ->
  exists x y z tx ty tz, input = x ++ y ++ z /\
    tokenizes x tx /\ tokenizes y ty /\ tokenizes z tz /\ tokenizes input (tx ++ ty ++ tz) /\
    fails_at tx (ty ++ tz) (err_kind e, err_message e) tz /\
    line_after x <= err_line_number e <= line_after x + 1 /\
    exists set, parse x = Ok set.
Proof.
  intros input e P. destruct (error_place _ _ P) as (x & y & z & tx & ty & tz & -> & Hx & Hy & Hz & Ht & Ha & _ & Hl).
  exists x, y, z, tx, ty, tz. do 7 (split; [assumption || reflexivity|]). destruct (at_file _ _ _ _ Ha) as (f & H).
  exists (file_means f). apply parse_says. exists tx. auto.
Qed.

Theorem lines_viable : forall p z e, parse (p ++ LF :: z) = Err e -> line_after p + 1 < err_line_number e ->
  exists set, parse (p ++ [LF]) = Ok set.
Proof.
  intros p z e P Hl. destruct (error_viable _ _ P) as (x & y & w & tx & ty & tw & Ei & _ & _ & _ & _ & _ & Hlx & set & Ps).
  symmetry in Ei. destruct (two_splits _ _ _ _ _ _ Ei) as [(q & ->)|(q & E)].
  - destruct (cut_parses _ _ _ Ps) as (set' & K & _). eauto.
  - exfalso. subst p. unfold line_after in *. rewrite count_occ_app in Hl. lia.
Qed.
