(** The results of [obj::parse] on whole texts. *)
From Verif Require Import ObjModel LexerProofs SourceProofs ConsumeProofs TotalProofs RunProofs
  ObjErrorSpec ObjAccept ObjElements ObjBody ObjFile.
From Verif Require Export TextProofs.
Local Open Scope list_scope.

(** * Runs *)

Definition fits (input : bytes) : Prop := (Z.of_nat (length input) <= isize_max)%Z.

Lemma fits_room : forall input, fits input -> room no_counts (lex input).
Proof. intros input H. unfold fits in H. unfold room, ObjAccept.small. pose proof (lex_length input). cbn [n_v n_t n_n no_counts]. repeat split; lia. Qed.

Lemma run_cases : forall dbg fuel ts, length ts < fuel ->
  exists pre rest, ts = pre ++ rest /\
    ((exists set, parse_objset dbg fuel (list_parser 1 ts) = (Ok set, list_parser (1 + count_nl pre) rest)) \/
     (exists b, parse_objset dbg fuel (list_parser 1 ts) = (bad_outcome (1 + count_nl pre) b, list_parser (1 + count_nl pre) rest))).
Proof.
  intros dbg fuel ts Hl. destruct (cons_parse_objset fuel dbg always 1 ts Hl I) as (pre & H1 & H2 & H3).
  destruct (parse_objset dbg fuel (list_parser 1 ts)) as [o [line rest]] eqn:E. cbn [fst snd lexer_state line_number] in *.
  subst line. exists pre, rest. split; auto. destruct o as [set|e|x|].
  - left. exists set. reflexivity.
  - right. exists (Fails (err_kind e) (err_message e)). destruct e. cbn in *. subst. reflexivity.
  - right. exists (Panics x). reflexivity.
  - destruct H3.
Qed.

Lemma parse_ok_iff : forall input set, fits input ->
  ObjModel.parse false input = Ok set <->
  exists ts f, tokenizes input ts /\ reads_file ts f [] /\ Forall drawable (file_objects f) /\ set = file_means f.
Proof.
  intros input set Hf. rewrite parse_lex. unfold parse_tokens.
  pose proof (lex_fuel input) as Hl. fold (ObjModel.fuel_for input) in Hl.
  destruct (acc_at_objset (ObjModel.fuel_for input) (lex input) (fits_room _ Hf) Hl) as [Hacc _].
  split.
  - intros E. destruct (run_cases false _ _ Hl) as (pre & rest & _ & [(set' & H)|(b & H)]); rewrite H in E.
    + inversion E; subst set'. destruct (Hacc 1 set rest) as [H1 _].
      destruct H1 as (-> & f & Hr & Hd & ->); [eexists; exact H|].
      exists (lex input), f. split; [now apply tokenizes_iff|auto].
    + destruct b; discriminate.
  - intros (ts & f & Ht & Hr & Hd & ->). apply tokenizes_iff in Ht. subst ts.
    destruct (Hacc 1 (file_means f) []) as [_ H1]. destruct H1 as [l' E]; [eauto|]. now rewrite E.
Qed.

Lemma run_bad : forall input b rest, fits input ->
  (exists l, parse_objset false (ObjModel.fuel_for input) (list_parser 1 (lex input)) = (bad_outcome l b, list_parser l rest)) <->
  lift fails_file (lex input) b rest \/ (b = Panics PanicIndex /\ panics_file (lex input) rest).
Proof.
  intros input b rest Hf.
  pose proof (lex_fuel input) as Hl. fold (ObjModel.fuel_for input) in Hl.
  apply (bad_at_objset (ObjModel.fuel_for input) (lex input) (fits_room _ Hf) Hl).
Qed.

Lemma parse_err_iff : forall input e, fits input ->
  ObjModel.parse false input = Err e <->
  exists before after ts rest c,
    input = before ++ after /\ tokenizes before ts /\ tokenizes after rest /\ tokenizes input (ts ++ rest) /\
    fails_file (ts ++ rest) c rest /\
    e = mkParseError (line_after before) (fst c) (snd c).
Proof.
  intros input e Hf. rewrite parse_lex. unfold parse_tokens.
  pose proof (lex_fuel input) as Hl. fold (ObjModel.fuel_for input) in Hl.
  destruct (run_cases false _ _ Hl) as (pre & rest & Hs & Hr).
  split.
  - intros E. destruct Hr as [(set' & H)|(b & H)]; rewrite H in E; [discriminate|].
    assert (Hb : lift fails_file (lex input) b rest \/ (b = Panics PanicIndex /\ panics_file (lex input) rest)).
    { apply run_bad; auto. eexists. exact H. }
    destruct Hb as [(c & -> & Hb)|(-> & _)]; [|discriminate].
    destruct (tokenizes_split _ _ (lex_tokenizes input) _ _ Hs) as (s1 & s2 & Ei & H1 & H2).
    exists s1, s2, pre, rest, c. rewrite Hs in Hb. repeat split; auto.
    + rewrite <- Hs. apply lex_tokenizes.
    + cbn in E. inversion E. now rewrite (count_nl_line _ _ H1).
  - intros (before & after & ts & rest' & c & Ei & H1 & H2 & H3 & Hb & ->).
    apply tokenizes_iff in H3.
    assert (Hx : exists l, parse_objset false (ObjModel.fuel_for input) (list_parser 1 (lex input)) =
              (bad_outcome l (Fails (fst c) (snd c)), list_parser l rest')).
    { apply run_bad; auto. left. exists c. split; auto. now rewrite <- H3. }
    destruct Hx as [l Hx]. rewrite Hx. cbn. f_equal. f_equal. f_equal.
    destruct Hr as [(set' & H)|(b & H)]; rewrite Hx in H; [discriminate|].
    inversion H as [[Ho El Er]]. subst rest'. clear H Ho.
    rewrite <- H3 in Hs. apply app_inv_tail in Hs. subst pre.
    rewrite (count_nl_line _ _ H1). reflexivity.
Qed.

Lemma parse_panic_iff : forall input x, fits input ->
  ObjModel.parse false input = Panic x <->
  x = PanicIndex /\ exists ts rest, tokenizes input ts /\ panics_file ts rest.
Proof.
  intros input x Hf. rewrite parse_lex. unfold parse_tokens.
  pose proof (lex_fuel input) as Hl. fold (ObjModel.fuel_for input) in Hl.
  split.
  - intros E. destruct (run_cases false _ _ Hl) as (pre & rest & Hs & [(set' & H)|(b & H)]); rewrite H in E; [discriminate|].
    destruct (run_bad input b rest Hf) as [Hb _]. destruct Hb as [(c & -> & Hb)|(-> & Hb)]; [eexists; exact H|discriminate|].
    cbn in E. inversion E. split; auto. exists (lex input), rest. split; auto. apply lex_tokenizes.
  - intros (-> & ts & rest & Ht & Hp). apply tokenizes_iff in Ht. subst ts.
    destruct (run_bad input (Panics PanicIndex) rest Hf) as [_ Hb]. destruct Hb as [l E]; auto. now rewrite E.
Qed.
