(** Blank lines at the top and at the end of an MTL text. *)
From Verif Require Import RewriteSpec TopLines MtlModel MtlSpec LexerProofs TotalProofs TextProofs MtlTop MtlFacts Merge.
Local Open Scope list_scope.

Lemma says_tops : forall n f ts, says_file f ts -> says_file f (repeat nl n ++ ts).
Proof. intros n f ts (k & ts' & -> & H). exists (n + k), ts'. split; auto. now rewrite repeat_app, app_assoc. Qed.

Lemma fails_tops : forall n a from c rest, fails_at a from c rest -> fails_at (repeat nl n ++ a) from c rest.
Proof.
  intros n a from c rest H. destruct H.
  - rewrite <- repeat_app. now apply fails_at_start.
  - eapply fails_at_name, says_tops; eauto.
  - rewrite app_assoc. eapply fails_at_setting; [eapply says_tops; eassumption|eassumption|eassumption].
Qed.

Lemma mtl_top : forall p input, blank_lines p -> parse (p ++ input) = later (count_occ ascii_dec p LF) (parse input).
Proof.
  intros p input Hp. pose proof (blank_tokens p input Hp) as E.
  destruct (mtl_terminates input (lex input) (S (length (lex input))) (lex_tokenizes _) ltac:(lia)) as [_ [(set & P)|(e & P)]]; rewrite P; cbn [later].
  - destruct (parsed_says _ _ P) as (f & (ts & Ht & Hs) & ->). apply parse_says.
    exists (repeat nl (count_occ ascii_dec p LF) ++ ts). split; [|now apply says_tops].
    apply tokenizes_iff. apply tokenizes_iff in Ht. now rewrite E, Ht.
  - apply error_iff in P. destruct P as (x & y & z & tx & ty & tz & -> & Hx & Hy & Hz & Ht & Hfa & Hl).
    apply error_iff. cbn [err_kind err_message err_line_number].
    exists (p ++ x), y, z, (repeat nl (count_occ ascii_dec p LF) ++ tx), ty, tz. rewrite <- !app_assoc.
    split; auto. split; [|split; [auto|split; [auto|split; [|split]]]].
    + apply tokenizes_iff. rewrite blank_tokens by auto. apply tokenizes_iff in Hx. now rewrite Hx.
    + apply tokenizes_iff. apply tokenizes_iff in Ht. now rewrite E, <- Ht.
    + now apply fails_tops.
    + now rewrite line_after_app, Hl.
Qed.

Lemma mtl_final : forall input set, parse input = Ok set -> parse (input ++ [LF]) = Ok set.
Proof.
  intros input set H. rewrite (concat_materials input [] set (mkMaterialSet []) H eq_refl), app_nil_r. now destruct set.
Qed.
