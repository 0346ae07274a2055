(** What the crate accepts of the grammars in GRAMMAR.md. *)
From Verif Require Import ObjModel ObjWriteSpec ObjUnknown NumberProofs FloatProofs LexerProofs ObjTop ObjWrite WordProofs ObjWriter GrammarSpec.
Local Open Scope char_scope.
Local Open Scope list_scope.

(** * Words *)

Lemma forall_digits : forall s, Forall Digit s -> exists n, digits s n.
Proof.
  intros s. induction s as [|c s IH] using rev_ind; intros H; [exists 0%N; constructor|].
  apply Forall_app in H as [H H']. inversion H' as [|? ? [d Hd] _]; subst. destruct (IH H) as [n Hn].
  exists (10 * n + d)%N. now constructor.
Qed.

Lemma digits_app : forall a b n m, digits a n -> digits b m -> exists k, digits (a ++ b) k.
Proof.
  intros a b n m Ha Hb. induction Hb as [|s k c d H IH Hd]; [rewrite app_nil_r; eauto|].
  destruct IH as [j Hj]. rewrite app_assoc. eexists. constructor; eauto.
Qed.

Lemma float_read : forall s, Float s -> exists x, ObjSpec.float_token s x.
Proof.
  intros s (a & b & (d & [Hd Hdd] & Ha) & [Hb Hbb] & ->). apply accepted_iff. left.
  destruct (forall_digits _ Hdd) as [n Hn]. destruct (forall_digits _ Hbb) as [m Hm]. destruct (digits_app _ _ _ _ Hn Hm) as [k Hk].
  assert (M : mantissa_text (d ++ "." :: b) k (List.length b)).
  { apply mantissa_point; auto. destruct d; [congruence|discriminate]. }
  destruct Ha as [->| ->].
  - exists false, k, (List.length b), 0%Z, [], (d ++ "." :: b), []. split; [now rewrite app_nil_r|]. repeat split; auto; constructor.
  - exists true, k, (List.length b), 0%Z, ["-"], (d ++ "." :: b), []. split; [now rewrite app_nil_r|]. repeat split; auto; constructor.
Qed.

Lemma digit_word : forall c, Digit c -> word_byte c.
Proof. intros c [d H]. apply plain_word. destruct H; reflexivity. Qed.

Lemma letter_word : forall c, Letter c -> word_byte c.
Proof.
  intros c H. unfold Letter in H. apply plain_word. unfold plain. cbv zeta.
  rewrite (proj2 (N.ltb_lt _ _)) by lia. repeat match goal with |- context [(?a =? ?b)%N] => rewrite (proj2 (N.eqb_neq a b)) by lia end. reflexivity.
Qed.

Lemma digits_word : forall s, Digits s -> word s.
Proof. intros s [H HF]. split; auto. eapply Forall_impl; [|exact HF]. apply digit_word. Qed.

Lemma string_word : forall s, String_ s -> word s.
Proof.
  intros s (a & b & -> & Ha & HF & Hb). split; [destruct a; [congruence|discriminate]|]. apply Forall_app. split.
  - eapply Forall_impl; [|exact HF]. apply letter_word.
  - eapply Forall_impl; [|exact Hb]. intros c [H|H]; [now apply digit_word|now apply letter_word].
Qed.

Lemma minus_word : word ["-"].
Proof. apply plain_words; [discriminate|reflexivity]. Qed.

Lemma number_word_ : forall s, Number s -> word s.
Proof.
  intros s (d & H & [->| ->]); [now apply digits_word|]. change ("-" :: d) with (["-"] ++ d). apply word_app; [apply minus_word|now apply digits_word].
Qed.

Lemma float_word : forall s, Float s -> word s.
Proof.
  intros s (a & b & Ha & Hb & ->). change ("." :: b) with (["."] ++ b). apply word_app; [now apply number_word_|].
  apply word_app; [apply plain_words; [discriminate|reflexivity]|now apply digits_word].
Qed.

(** ** Modest numbers *)

Lemma modest_part : forall a b c, modest (a ++ b ++ c) -> modest b.
Proof.
  intros a b c [H1 H2]. split.
  - intros K. apply H1. apply in_or_app. right. apply in_or_app. now left.
  - intros x y z n E Hn. apply (H2 (a ++ x) y (z ++ c) n); auto. rewrite E, <- !app_assoc. reflexivity.
Qed.

Lemma modest_left : forall b c, modest (b ++ c) -> modest b.
Proof. intros b c. apply (modest_part []). Qed.

Lemma modest_right : forall a b, modest (a ++ b) -> modest b.
Proof. intros a b H. apply (modest_part a b []). now rewrite app_nil_r. Qed.

Lemma modest_digits : forall s, Digits s -> modest s -> exists n, (n < 2 ^ 63)%N /\ unsigned_text s n.
Proof.
  intros s [Hs HF] [_ H]. destruct (forall_digits _ HF) as [n Hn]. exists n. split.
  - apply (H [] s [] n); auto. now rewrite app_nil_r.
  - exists s. auto.
Qed.

Lemma number_read : forall s, Number s -> modest s -> exists k, number_token s k.
Proof.
  intros s (d & Hd & Hs) Hm. assert (E : s = d) by (destruct Hs as [E|E]; auto; destruct Hm as [Hm _]; exfalso; apply Hm; rewrite E; now left).
  subst s. destruct (modest_digits _ Hd Hm) as (n & Hn & Hu). exists (N.to_nat n). apply parse_isize_iff. split; [lia|].
  exists n. left. split; auto. lia.
Qed.

Lemma smoothing_read : forall s, Digits s -> modest s -> exists n, smoothing_token s n.
Proof.
  intros s Hd Hm. destruct (modest_digits _ Hd Hm) as (n & Hn & Hu). exists n. apply smoothing_number, parse_usize_iff.
  split; auto. lia.
Qed.

Definition AnyRef (s : bytes) : Prop := V s \/ VT s \/ VN s \/ VTN s.

Lemma ref_read : forall s, AnyRef s -> modest s -> exists r, ref_token s r.
Proof.
  intros s [H|[(a & b & Ha & Hb & ->)|[(a & b & Ha & Hb & ->)|(a & b & c & Ha & Hb & Hc & ->)]]] Hm.
  - destruct (number_read _ H Hm) as [k Hk]. eexists. apply ref_1; eauto.
  - destruct (number_read _ Ha (modest_left _ _ Hm)) as [k Hk].
    destruct (number_read _ Hb (modest_right _ _ (modest_right _ _ Hm))) as [j Hj].
    eexists. apply ref_2; eauto. apply part_number; eauto.
  - destruct (number_read _ Ha (modest_left _ _ Hm)) as [k Hk].
    destruct (number_read _ Hb (modest_right _ _ (modest_right _ _ Hm))) as [j Hj].
    eexists. apply (ref_3 a [] b); eauto; [constructor|apply part_number; eauto].
  - destruct (number_read _ Ha (modest_left _ _ Hm)) as [k Hk]. apply modest_right, modest_right in Hm.
    destruct (number_read _ Hb (modest_left _ _ Hm)) as [j Hj]. apply modest_right, modest_right in Hm.
    destruct (number_read _ Hc Hm) as [i Hi].
    eexists. apply ref_3; eauto; apply part_number; eauto.
Qed.

Lemma slash_word : word (lit "/").
Proof. apply lit_word; [discriminate|reflexivity]. Qed.

Lemma ref_word : forall s, AnyRef s -> word s.
Proof.
  pose proof slash_word as S. assert (S2 : word (lit "//")) by (apply lit_word; [discriminate|reflexivity]).
  pose proof number_word_ as W.
  intros s [H|[(a & b & Ha & Hb & ->)|[(a & b & Ha & Hb & ->)|(a & b & c & Ha & Hb & Hc & ->)]]]; [now apply W| | |];
    repeat apply word_app; auto.
Qed.

(** * Lines *)

Lemma forall_read : forall A (P : bytes -> Prop) (R : bytes -> A -> Prop) ws, (forall w, P w -> modest w -> exists a, R w a) ->
  Forall P ws -> Forall modest ws -> exists l, Forall2 R ws l.
Proof.
  intros A P R ws K H. induction H as [|w ws Hw H IH]; intros Hm; [exists []; constructor|].
  inversion Hm; subst. destruct (K w) as [a Ha]; auto. destruct IH as [l Hl]; auto. exists (a :: l). now constructor.
Qed.

(** The statements of an object. *)
Definition Statement (l : line) : Prop := AnyVertex l \/ Element l \/ SmoothingGroup l \/ GroupName l.

Lemma any_refs : forall ws, Forall V ws \/ Forall VT ws \/ Forall VN ws \/ Forall VTN ws -> Forall AnyRef ws.
Proof. unfold AnyRef. intros ws [H|[H|[H|H]]]; (eapply Forall_impl; [|exact H]); auto. Qed.

Lemma line_refs : forall l, Line l -> exists ws, l = lit "l" :: ws /\ Forall AnyRef ws.
Proof. intros l (ws & -> & _ & H). exists ws. split; auto. apply any_refs. tauto. Qed.

Lemma face_refs : forall l, Face l -> exists ws, l = lit "f" :: ws /\ Forall AnyRef ws.
Proof. intros l (ws & -> & _ & H). exists ws. split; auto. now apply any_refs. Qed.

Lemma string_not_nl : forall ws, Forall String_ ws -> ~ In nl ws.
Proof.
  intros ws H K. rewrite Forall_forall in H. apply H, string_word in K. destruct K as [_ K]. inversion K as [|? ? (_ & L & _) _]. apply L. now left.
Qed.

Lemma statement_read : forall l, Statement l -> ~ ParameterVertex l -> modest_line l -> exists s, writes s l.
Proof.
  intros l H Hvp Hm. unfold modest_line in Hm. destruct H as [[H|[H|[H|H]]]|[H|[H|H]]].
  - destruct H as (x & y & z & w & Hx & Hy & Hz & Hw & ->). destruct (float_read _ Hx), (float_read _ Hy), (float_read _ Hz).
    destruct Hw as [->|(t & Ht & ->)]; [eexists; apply writes_v3; eauto|]. destruct (float_read _ Ht). eexists. apply writes_v4; eauto.
  - destruct H as (u & v & w & Hu & Hv & Hw & ->). destruct (float_read _ Hu).
    destruct Hv as [->|(a & Ha & ->)], Hw as [->|(b & Hb & ->)].
    + eexists. apply writes_vt1; eauto.
    + destruct (float_read _ Hb). eexists. apply writes_vt2; eauto.
    + destruct (float_read _ Ha). eexists. apply writes_vt2; eauto.
    + destruct (float_read _ Ha), (float_read _ Hb). eexists. apply writes_vt3; eauto.
  - destruct H as (x & y & z & Hx & Hy & Hz & ->). destruct (float_read _ Hx), (float_read _ Hy), (float_read _ Hz). eexists. apply writes_vn; eauto.
  - contradiction.
  - assert (M := Hm (or_introl H)). destruct H as [(ws & -> & _ & H)|[H|H]].
    + inversion M; subst. destruct (forall_read _ _ number_token ws number_read H) as [ks Hk]; auto. eexists. apply writes_p; eauto.
    + destruct (line_refs _ H) as (ws & -> & Hr). inversion M; subst. destruct (forall_read _ _ ref_token ws ref_read Hr) as [rs Hk]; auto. eexists. apply writes_l; eauto.
    + destruct (face_refs _ H) as (ws & -> & Hr). inversion M; subst. destruct (forall_read _ _ ref_token ws ref_read Hr) as [rs Hk]; auto. eexists. apply writes_f; eauto.
  - assert (M := Hm (or_intror H)). destruct H as (w & -> & H). assert (Hw : modest w) by (inversion M as [|? ? _ M']; inversion M'; auto).
    assert (K : exists n, smoothing_token w n).
    { destruct H as [->|[->|H]]; [eexists; apply smoothing_off| |now apply smoothing_read].
      exists 0%N. apply smoothing_number. reflexivity. }
    destruct K as [n Hn]. eexists. apply writes_s; eauto.
  - destruct H as (ws & -> & H). eexists. apply writes_g. now apply string_not_nl.
Qed.

Lemma tag_word : forall s, s <> ""%string -> forallb plain (lit s) = true -> word (lit s).
Proof. exact lit_word. Qed.

Ltac tag := apply tag_word; [discriminate|reflexivity].

Lemma optional_words_ : forall w, optional Float w -> Forall word w.
Proof. intros w [->|(t & Ht & ->)]; [constructor|]. constructor; [now apply float_word|constructor]. Qed.

Lemma forall_words : forall (P : bytes -> Prop) ws, (forall w, P w -> word w) -> Forall P ws -> Forall word ws.
Proof. intros P ws K H. eapply Forall_impl; eauto. Qed.

Lemma statement_words : forall l, Statement l -> Forall word l.
Proof.
  pose proof float_word as F.
  intros l [[H|[H|[H|H]]]|[[H|[H|H]]|[H|H]]].
  - destruct H as (x & y & z & w & Hx & Hy & Hz & Hw & ->). apply optional_words_ in Hw. cbn [app]. do 4 (apply Forall_cons; [first [tag|auto]|]). exact Hw.
  - destruct H as (u & v & w & Hu & Hv & Hw & ->). apply optional_words_ in Hv, Hw. cbn [app]. constructor; [tag|]. constructor; auto. now apply Forall_app.
  - destruct H as (x & y & z & Hx & Hy & Hz & ->). do 4 (apply Forall_cons; [first [tag|auto]|]). constructor.
  - destruct H as (u & v & w & Hu & Hv & Hw & ->). apply optional_words_ in Hv, Hw. cbn [app]. constructor; [tag|]. constructor; auto. now apply Forall_app.
  - destruct H as (ws & -> & _ & H). constructor; [tag|]. eapply forall_words; [|exact H]. apply number_word_.
  - destruct (line_refs _ H) as (ws & -> & Hr). constructor; [tag|]. eapply forall_words; [|exact Hr]. apply ref_word.
  - destruct (face_refs _ H) as (ws & -> & Hr). constructor; [tag|]. eapply forall_words; [|exact Hr]. apply ref_word.
  - destruct H as (w & -> & H). constructor; [tag|]. constructor; [|constructor]. destruct H as [->|[->|H]]; [tag|tag|now apply digits_word].
  - destruct H as (ws & -> & H). constructor; [tag|]. eapply forall_words; [|exact H]. apply string_word.
Qed.

(** * Files *)

Lemma star_forall : forall (P : lang) (Q : line -> Prop) ls, (forall a, P a -> Forall Q a) -> star P ls -> Forall Q ls.
Proof. intros P Q ls K H. induction H; [constructor|]. apply Forall_app. auto. Qed.

Lemma single_forall : forall (P Q : line -> Prop) ls, (forall l, P l -> Q l) -> single P ls -> Forall Q ls.
Proof. intros P Q ls K (l & H & ->). auto. Qed.

Lemma any_element : forall ls, AnyElement ls -> Forall Statement ls.
Proof.
  assert (K : forall ls, star (single Element) ls -> Forall Statement ls).
  { intros ls. apply star_forall. intros a. apply single_forall. intros l H. right. now left. }
  intros ls [H|(a & b & Ha & Hb & ->)]; auto. apply Forall_app. split; auto.
  eapply single_forall; [|exact Ha]. intros l H. right. right. now left.
Qed.

Lemma any_part : forall ls, star (alt (single AnyVertex) AnyElement) ls -> Forall Statement ls.
Proof.
  intros ls. apply star_forall. intros a [H|H]; [|now apply any_element].
  eapply single_forall; [|exact H]. intros l K. now left.
Qed.

Lemma body_statements : forall ls, ObjectBody ls -> Forall Statement ls.
Proof.
  intros ls (a & b & Ha & Hb & ->). apply Forall_app. split; [now apply any_part|].
  eapply star_forall; [|exact Hb]. intros g (x & y & Hx & Hy & ->). apply Forall_app. split; [|now apply any_part].
  eapply single_forall; [|exact Hx]. intros l K. right. right. now right.
Qed.

(** The lines of one object after the other. *)
Inductive object_list : list (bytes * list line) -> list line -> Prop :=
| object_list_end : object_list [] []
| object_list_more w body os ls : String_ w -> Forall Statement body -> object_list os ls ->
    object_list ((w, body) :: os) ([lit "o"; w] :: body ++ ls).

Lemma objects_list : forall ls, star Object ls -> exists os, object_list os ls.
Proof.
  intros ls H. induction H as [|a b Ha H [os IH]]; [exists []; constructor|].
  destruct Ha as (x & y & (l & (w & -> & Hw) & ->) & Hy & ->). apply body_statements in Hy.
  exists ((w, y) :: os). cbn [app]. now constructor.
Qed.

Lemma set_list : forall ls, ObjectSet ls -> exists body os ls', Forall Statement body /\ object_list os ls' /\ ls = body ++ ls'.
Proof.
  intros ls (a & b & Ha & Hb & ->). destruct (objects_list _ Hb) as [os Ho].
  destruct Ha as [->|[Ha|Ha]].
  - exists [], os, b. auto.
  - destruct Ha as (x & y & (l & (w & -> & Hw) & ->) & Hy & ->). apply body_statements in Hy.
    exists [], ((w, y) :: os), (([[lit "o"; w]] ++ y) ++ b). split; [constructor|]. split; auto.
    cbn [app]. now constructor.
  - apply body_statements in Ha. exists a, os, b. auto.
Qed.

Definition readable_line (l : line) : Prop := ~ ParameterVertex l /\ modest_line l.

Lemma body_read : forall body last, Forall Statement body -> Forall readable_line body ->
  exists ss, writes_body last ss (line_tokens body).
Proof.
  intros body last H. induction H as [|l body Hl H IH]; intros HR; [exists []; constructor|].
  inversion HR as [|? ? [Hvp Hm] HR']; subst. destruct (statement_read l Hl Hvp Hm) as [s Hs]. destruct (IH HR') as [ss Hss].
  exists (s :: ss). unfold line_tokens. cbn [flat_map]. rewrite <- app_assoc. now apply writes_body_line.
Qed.

Lemma objects_readable : forall os ls, object_list os ls -> Forall readable_line ls ->
  exists fs, writes_objects fs (line_tokens ls).
Proof.
  intros os ls H. induction H as [|w body os ls Hw Hb H IH]; intros HR; [exists []; constructor|].
  inversion HR; subst. match goal with K : Forall _ (_ ++ _) |- _ => apply Forall_app in K as [HB HL] end.
  destruct (IH HL) as [fs Hfs]. destruct (body_read body (none_left fs) Hb HB) as [ss Hss].
  exists ((w, ss) :: fs). change (line_tokens ([lit "o"; w] :: body ++ ls)) with (lit "o" :: w :: nl :: line_tokens (body ++ ls)).
  rewrite line_tokens_app. now constructor.
Qed.

Lemma set_read : forall ls, ObjectSet ls -> Forall readable_line ls ->
  exists f, file_libraries f = [] /\ writes_file f (line_tokens ls).
Proof.
  intros ls H HR. destruct (set_list _ H) as (body & os & ls' & Hb & Ho & ->). apply Forall_app in HR as [HB HL].
  destruct (objects_readable _ _ Ho HL) as [fs Hfs]. destruct body as [|l body].
  - exists (mkObjFile [] fs). split; auto. apply (writes_named [] fs []); [constructor|exact Hfs].
  - destruct (body_read (l :: body) (none_left fs) Hb HB) as [ss Hss]. exists (mkObjFile [] (([], ss) :: fs)). split; auto.
    rewrite line_tokens_app. apply (writes_unnamed [] ss fs []); auto. constructor.
Qed.

Lemma object_words : forall os ls, object_list os ls -> Forall (Forall word) ls.
Proof.
  intros os ls H. induction H as [|w body os ls Hw Hb H IH]; constructor.
  - constructor; [tag|]. constructor; [now apply string_word|constructor].
  - apply Forall_app. split; auto. eapply Forall_impl; [|exact Hb]. apply statement_words.
Qed.

Lemma set_words : forall ls, ObjectSet ls -> Forall (Forall word) ls.
Proof.
  intros ls H. destruct (set_list _ H) as (body & os & ls' & Hb & Ho & ->). apply Forall_app. split.
  - eapply Forall_impl; [|exact Hb]. apply statement_words.
  - eapply object_words; eauto.
Qed.

Theorem grammar_read : forall ls, ObjectSet ls -> Forall (fun l => ~ ParameterVertex l) ls -> Forall modest_line ls ->
  fits (written ls) ->
  exists f, file_libraries f = [] /\ writes_file f (line_tokens ls) /\
    (well_formed f -> forall dbg, parse dbg (written ls) = Ok (file_means f)).
Proof.
  intros ls H Hvp Hm Hf. destruct (set_read ls H) as (f & Hl & Hw).
  { rewrite Forall_forall in *. intros l Hi. split; auto. }
  exists f. split; auto. split; auto. intros Hwf dbg. eapply written_parses; eauto.
  apply unlines_any. eapply Forall_impl; [|apply set_words; exact H]. intros l Hl'. eapply Forall_impl; [|exact Hl']. apply word_token.
Qed.

(** * Parts of the grammar that are not accepted *)

Lemma lines_split : forall ls l, In l ls -> exists a b, line_tokens ls = a ++ l ++ nl :: b /\ (a = [] \/ exists a', a = a' ++ [nl]).
Proof.
  intros ls l H. apply in_split in H as (x & y & ->). exists (line_tokens x), (line_tokens y). split.
  - rewrite line_tokens_app. change (line_tokens (l :: y)) with ((l ++ [nl]) ++ line_tokens y). now rewrite <- app_assoc.
  - destruct x as [|z x _] using rev_ind; [now left|]. right. rewrite line_tokens_app.
    exists (line_tokens x ++ z). change (line_tokens [z]) with ((z ++ [nl]) ++ []). now rewrite app_nil_r, app_assoc.
Qed.

Lemma words_tokens : forall ls, Forall (Forall word) ls -> tokenizes (written ls) (line_tokens ls).
Proof.
  intros ls H. apply unlines_any. eapply Forall_impl; [|exact H]. intros l Hl. eapply Forall_impl; [|exact Hl]. apply word_token.
Qed.

Theorem parameter_vertex_rejected : forall dbg ls l set, ObjectSet ls -> In l ls -> ParameterVertex l -> fits (written ls) ->
  parse dbg (written ls) <> Ok set.
Proof.
  intros dbg ls l set H Hi (u & v & w & Hu & Hv & Hw & ->) Hf. destruct (lines_split _ _ Hi) as (a & b & E & Ha).
  assert (T := words_tokens _ (set_words _ H)). rewrite E in T. cbn [app] in T.
  eapply (unknown_rejected dbg _ a (lit "vp")); eauto. split; [|repeat split; discriminate].
  cbn. intros K. decompose [or] K; try discriminate; contradiction.
Qed.
