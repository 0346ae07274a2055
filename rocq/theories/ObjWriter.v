(** The writer for OBJ statements: its texts are read back. *)
From Verif Require Import ObjModel ObjImageSpec LexerProofs TextProofs ObjTop ObjMeaning ObjFacts ObjMore ObjProps ObjWrite
  NumberProofs FloatProofs FmtProofs NumberFacts WordProofs DisplayProofs.
Local Open Scope list_scope.

(** * Tokens with one space between them *)

Lemma unwords_any : forall ws rest ts, Forall is_token ws -> tokenizes rest ts -> tokenizes (unwords ws ++ nl ++ rest) (ws ++ nl :: ts).
Proof.
  intros ws rest ts H Hr.
  assert (Hn : tokenizes (nl ++ rest) (nl :: ts)) by (cbn; apply tk_line_end; [now left|exact Hr]).
  assert (Hw : forall w r l, is_token w -> tokenizes r l -> starts_with (fun c => ~ word_byte c) r -> tokenizes (w ++ r) (w :: l)).
  { intros w r l [(c & Hc & ->)|(H1 & H2)] Hl Hs; [now apply tk_line_end|now apply tk_word]. }
  induction H as [|w ws H1 H IH]; [exact Hn|]. destruct ws as [|w' ws].
  - cbn [unwords app]. apply Hw; auto. intros (_ & K & _). apply K. now left.
  - change (unwords (w :: w' :: ws)) with (w ++ lit " " ++ unwords (w' :: ws)). rewrite <- !app_assoc.
    change ((w :: w' :: ws) ++ nl :: ts) with (w :: (w' :: ws) ++ nl :: ts). apply Hw; auto.
    + cbn [lit list_ascii_of_string app]. apply tk_separator; [now left|exact IH].
    + intros (K & _). apply K. now left.
Qed.

Lemma unlines_any : forall lines, Forall (Forall is_token) lines -> tokenizes (unlines (map unwords lines)) (line_tokens lines).
Proof.
  intros lines H. induction H as [|l lines Hl H IH]; [constructor|].
  unfold line_tokens. cbn [map unlines flat_map]. rewrite <- !app_assoc. cbn [app]. apply unwords_any; auto.
Qed.

Lemma line_tokens_app : forall a b, line_tokens (a ++ b) = line_tokens a ++ line_tokens b.
Proof. intros a b. apply flat_map_app. Qed.

(** * Numbers and references *)

Definition small (k : nat) : Prop := (Z.of_nat k <= isize_max)%Z.

Lemma numeral_token : forall k, small k -> number_token (numeral k) k.
Proof. exact show_number. Qed.

Lemma numeral_word : forall k, word (numeral k).
Proof. intros k. apply plain_words; [apply show_N_some|apply show_N_plain]. Qed.

Definition ref_small (r : reference) : Prop :=
  small (ref_v r) /\ (forall k, ref_t r = Some k -> small k) /\ (forall k, ref_n r = Some k -> small k).

Lemma show_ref_token : forall r, ref_small r -> ref_token (show_ref r) r.
Proof.
  intros [v t n] (Hv & Ht & Hn); cbn [ref_v ref_t ref_n] in *. apply numeral_token in Hv.
  unfold show_ref; cbn [ref_v ref_t ref_n]. destruct t as [t|], n as [n|].
  - apply ref_3; auto; apply part_number, numeral_token; auto.
  - apply ref_2; auto; apply part_number, numeral_token; auto.
  - apply (ref_3 _ [] (numeral n)); auto; [constructor|apply part_number, numeral_token; auto].
  - rewrite app_nil_r. now apply ref_1.
Qed.

Lemma show_ref_word : forall r, word (show_ref r).
Proof.
  intros [v t n]. unfold show_ref; cbn [ref_v ref_t ref_n].
  assert (W1 : word slash) by (apply lit_word; [discriminate|reflexivity]).
  pose proof numeral_word as W. destruct t as [t|], n as [n|]; rewrite ?app_nil_r; repeat (apply word_app; auto); auto.
Qed.

(** * Statements *)

Definition statement_small (s : statement) : Prop :=
  match s with
  | SPoint ks => Forall small ks
  | SLine rs | SFace rs => Forall ref_small rs
  | _ => True
  end.

Lemma forall2_map : forall A B (P : A -> Prop) (R : B -> A -> Prop) (f : A -> B) l, (forall x, P x -> R (f x) x) -> Forall P l -> Forall2 R (map f l) l.
Proof. intros A B P R f l K H. induction H; cbn; constructor; auto. Qed.

Lemma statement_line_writes : forall name s, statement_writable name s -> statement_small s -> writes s (statement_line s).
Proof.
  intros name s H Hs. destruct s as [[x y z w]|[x y z]|[x y z]|names|n|m|ks|rs|rs]; cbn [statement_writable statement_small statement_line] in *.
  - destruct H as (H1 & H2 & H3 & H4). apply writes_v4; now apply show_f64_read.
  - destruct H as (H1 & H2 & H3). apply writes_vt3; now apply show_f64_read.
  - destruct H as (H1 & H2 & H3). apply writes_vn; now apply show_f64_read.
  - apply writes_g. intros K. rewrite Forall_forall in H. apply H in K. now destruct K.
  - apply writes_s. apply smoothing_number. apply parse_usize_iff. split; auto. exists (show_N n).
    split; [apply show_N_some|]. split; [apply show_N_digits|auto].
  - apply writes_usemtl.
  - apply writes_p. apply (forall2_map _ _ small); auto. apply numeral_token.
  - apply writes_l. apply (forall2_map _ _ ref_small); auto. apply show_ref_token.
  - apply writes_f. apply (forall2_map _ _ ref_small); auto. apply show_ref_token.
Qed.

Lemma lit_token : forall s, s <> ""%string -> forallb plain (lit s) = true -> is_token (lit s).
Proof. intros s H K. apply word_token, lit_word; auto. Qed.

Ltac tok := apply lit_token; [intros K; discriminate K|reflexivity].

Lemma statement_line_tokens : forall (name : bytes -> Prop) s, (forall n, name n -> is_token n) -> statement_writable name s -> Forall is_token (statement_line s).
Proof.
  intros name s Hn H. assert (F : forall x, is_token (show_f64 x)) by (intros; apply word_token, show_f64_word).
  assert (M : forall A (f : A -> bytes) l, (forall x, word (f x)) -> Forall is_token (map f l)).
  { intros A f l K. apply Forall_forall. intros t Ht. apply in_map_iff in Ht. destruct Ht as (x & <- & _). now apply word_token. }
  destruct s as [v|v|v|names|n|m|ks|rs|rs]; cbn [statement_line statement_writable] in *; (apply Forall_cons; [tok|]).
  - repeat (apply Forall_cons; [auto|]); apply Forall_nil.
  - repeat (apply Forall_cons; [auto|]); apply Forall_nil.
  - repeat (apply Forall_cons; [auto|]); apply Forall_nil.
  - eapply Forall_impl; [|exact H]. intros a [K _]. auto.
  - apply Forall_cons; [apply word_token, plain_words; [apply show_N_some|apply show_N_plain]|apply Forall_nil].
  - apply Forall_cons; [auto|apply Forall_nil].
  - apply M, numeral_word.
  - apply M, show_ref_word.
  - apply M, show_ref_word.
Qed.

(** * Files *)

Lemma body_lines : forall name last ss, Forall (statement_writable name) ss -> Forall statement_small ss ->
  writes_body last ss (line_tokens (map statement_line ss)).
Proof.
  intros name last ss H Hs. apply lines_body. revert Hs. induction H as [|s ss H1 H IH]; intros Hs; cbn; [constructor|].
  inversion Hs; subst. constructor; auto. eapply statement_line_writes; eauto.
Qed.

Lemma objects_lines : forall name os, Forall (fun o => fst o <> []) os ->
  Forall (fun o => Forall (statement_writable name) (snd o)) os -> Forall (fun o => Forall statement_small (snd o)) os ->
  writes_objects os (line_tokens (flat_map object_lines os)).
Proof.
  intros name os Hn Hw Hs. induction os as [|[n ss] os IH]; [constructor|].
  inversion Hn; subst. inversion Hw; subst. inversion Hs; subst. cbn [flat_map]. rewrite line_tokens_app.
  unfold object_lines at 1. cbn [fst snd] in *. destruct n as [|c n]; [congruence|]. cbn [app].
  change (line_tokens ([lit "o"; c :: n] :: map statement_line ss)) with (lit "o" :: (c :: n) :: nl :: line_tokens (map statement_line ss)).
  cbn [app]. apply writes_objects_more; auto. eapply body_lines; eauto.
Qed.

Lemma libraries_lines : forall libs, ~ In nl libs -> writes_libraries libs (line_tokens (map (fun l => [lit "mtllib"; l]) libs)).
Proof.
  induction libs as [|l libs IH]; intros H; [constructor|].
  change (line_tokens (map (fun l0 => [lit "mtllib"; l0]) (l :: libs))) with (lit "mtllib" :: [l] ++ nl :: line_tokens (map (fun l0 => [lit "mtllib"; l0]) libs)).
  change (l :: libs) with ([l] ++ libs). apply writes_libraries_line; [|apply IH; intros K; apply H; now right].
  intros [K|[]]. apply H. now left.
Qed.

Definition file_small (f : obj_file) : Prop := Forall (fun o => Forall statement_small (snd o)) (file_objects f).

Lemma tokens_not_empty : forall t, is_token t -> t <> [].
Proof. intros t [(c & _ & ->)|[H _]]; [discriminate|exact H]. Qed.

Lemma file_written : forall (name : bytes -> Prop) f, (forall n, name n -> is_token n) -> writable name f -> file_small f ->
  writes_file f (line_tokens (file_lines f)).
Proof.
  intros name [libs os] Hn (Hl & Hns & Hw) Hs. unfold file_small, file_lines in *. cbn [file_libraries file_objects] in *.
  rewrite line_tokens_app.
  assert (HL : writes_libraries libs (line_tokens (map (fun l => [lit "mtllib"; l]) libs))).
  { apply libraries_lines. intros K. rewrite Forall_forall in Hl. apply Hl in K. now destruct K. }
  assert (HN : forall os, Forall name (map fst os) -> Forall (fun o : bytes * list statement => fst o <> []) os).
  { intros l H. apply Forall_forall. intros o Ho. rewrite Forall_forall in H. apply tokens_not_empty, Hn, H. now apply in_map. }
  destruct os as [|[n ss] os].
  - apply writes_named; [exact HL|constructor].
  - destruct Hns as [H1 H2]. apply HN in H2. destruct (list_eq_dec ascii_dec n []) as [->|Hne].
    + cbn [flat_map]. rewrite line_tokens_app. inversion Hw; subst. inversion Hs; subst. cbn [snd] in *.
      apply writes_unnamed; auto; [eapply body_lines; eauto|eapply objects_lines; eauto].
    + apply writes_named; [exact HL|]. eapply objects_lines; eauto.
Qed.

Lemma file_lines_tokens : forall (name : bytes -> Prop) f, (forall n, name n -> is_token n) -> writable name f -> Forall (Forall is_token) (file_lines f).
Proof.
  intros name [libs os] Hn (Hl & Hns & Hw). unfold file_lines. cbn [file_libraries file_objects] in *. apply Forall_app. split.
  - apply Forall_forall. intros l Hin. apply in_map_iff in Hin. destruct Hin as (n & <- & Hin). rewrite Forall_forall in Hl.
    destruct (Hl _ Hin). apply Forall_cons; [tok|]. apply Forall_cons; [auto|apply Forall_nil].
  - assert (Ho : forall o, In o os -> fst o = [] \/ name (fst o)).
    { intros o Hin. destruct os as [|o' os]; [destruct Hin|]. destruct Hns as [H1 H2]. destruct Hin as [<-|Hin]; [auto|].
      right. rewrite Forall_forall in H2. apply H2. now apply in_map. }
    apply Forall_forall. intros l Hin. apply in_flat_map in Hin. destruct Hin as (o & Hin & Hl'). unfold object_lines in Hl'.
    apply in_app_iff in Hl'. destruct Hl' as [K|K].
    + destruct (Ho _ Hin) as [E|E]; [rewrite E in K; destruct K|]. destruct (fst o) as [|c n] eqn:En; [destruct K|]. destruct K as [<-|[]].
      apply Forall_cons; [tok|]. apply Forall_cons; [auto|apply Forall_nil].
    + apply in_map_iff in K. destruct K as (s & <- & Hs). rewrite Forall_forall in Hw. specialize (Hw _ Hin). rewrite Forall_forall in Hw.
      eapply statement_line_tokens; eauto.
Qed.

(** ** The numbers are small *)

Lemma count_le : forall ss c, n_v (count_all c ss) <= n_v c + length ss /\ n_t (count_all c ss) <= n_t c + length ss /\ n_n (count_all c ss) <= n_n c + length ss.
Proof.
  induction ss as [|s ss IH]; intros c; [cbn; lia|]. change (count_all c (s :: ss)) with (count_all (count c s) ss).
  specialize (IH (count c s)). cbn [length]. assert (n_v (count c s) <= S (n_v c) /\ n_t (count c s) <= S (n_t c) /\ n_n (count c s) <= S (n_n c)) by (destruct s; simpl; lia). lia.
Qed.

Lemma proper_small : forall base now s M, proper base now s -> n_v now <= M -> n_t now <= M -> n_n now <= M -> small M -> statement_small s.
Proof.
  intros base now s M H Hv Ht Hn HM. unfold small in *.
  assert (R : forall r, ref_in_scope base now r -> ref_small r).
  { intros r (H1 & H2 & H3). unfold ref_small, part_in_scope, in_scope, small in *. split; [lia|].
    split; intros k E; rewrite E in *; lia. }
  destruct s; cbn [statement_small]; auto.
  - destruct H as [_ H]. eapply Forall_impl; [|exact H]. unfold in_scope, small. intros; lia.
  - destruct H as (_ & _ & H). eapply Forall_impl; [|exact H]. auto.
  - destruct H as (_ & _ & H). eapply Forall_impl; [|exact H]. auto.
Qed.

Lemma body_small : forall base ss now M, proper_body base now ss -> n_v now + length ss <= M -> n_t now + length ss <= M -> n_n now + length ss <= M ->
  small M -> Forall statement_small ss.
Proof.
  intros base ss. induction ss as [|s ss IH]; intros now M H Hv Ht Hn HM; constructor; destruct H as [H1 H2]; cbn [length] in *.
  - apply (proper_small base now s M); auto; lia.
  - apply (IH (count now s) M); auto; pose proof (count_le [s] now) as K; cbn [count_all fold_left length] in K; lia.
Qed.

Definition statements_count (os : list (bytes * list statement)) : nat := length (flat_map snd os).

Lemma objects_small : forall os now M, proper_objects now os ->
  n_v now + statements_count os <= M -> n_t now + statements_count os <= M -> n_n now + statements_count os <= M -> small M ->
  Forall (fun o => Forall statement_small (snd o)) os.
Proof.
  unfold statements_count. induction os as [|[n ss] os IH]; intros now M H Hv Ht Hn HM; [constructor|]. destruct H as [H1 H2].
  cbn [flat_map snd] in *. rewrite app_length in *. constructor.
  - cbn [snd]. apply (body_small now ss now M); auto; lia.
  - destruct (count_le ss now) as (C1 & C2 & C3). apply (IH (count_all now ss) M); auto; lia.
Qed.

Lemma lines_count : forall os, statements_count os <= length (flat_map object_lines os).
Proof.
  unfold statements_count. induction os as [|o os IH]; [auto|]. cbn [flat_map]. rewrite !app_length. unfold object_lines at 1.
  rewrite app_length, map_length. lia.
Qed.

Lemma fits_small : forall f, fits (write_file f) -> proper_objects no_counts (file_objects f) -> file_small f.
Proof.
  intros f Hf Hp. unfold fits, write_file in Hf. pose proof (unlines_length (map unwords (file_lines f))) as HL.
  rewrite map_length in HL. unfold file_lines in HL. rewrite app_length in HL. pose proof (lines_count (file_objects f)) as HC.
  eapply (objects_small _ no_counts (statements_count (file_objects f))); eauto.
  unfold small. unfold file_lines in Hf. lia.
Qed.

Theorem write_file_read : forall dbg f, well_formed f -> writable is_token f -> fits (write_file f) ->
  parse dbg (write_file f) = Ok (file_means f).
Proof.
  intros dbg f Hwf Hw Hf.
  eapply (written_parses dbg f (line_tokens (file_lines f))); eauto.
  - apply (file_written is_token); auto. apply fits_small; auto. apply Hwf.
  - apply unlines_any. eapply file_lines_tokens; eauto.
Qed.
