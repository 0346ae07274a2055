(** Words and lines. *)
From Verif Require Import LineSpec NumberSpec RustFmt LexerProofs TextProofs FmtProofs.
Local Open Scope list_scope.

(** * Words *)

Definition plain (c : ascii) : bool :=
  let n := N_of_ascii c in
  ((n <? 128) && negb ((n =? 32) || (n =? 92) || (n =? 9) || (n =? 10) || (n =? 13) || (n =? 35)))%N.

Lemma plain_word : forall c, plain c = true -> word_byte c.
Proof.
  intros c H. assert (K : forall d, c = d -> plain d = true) by (intros d <-; exact H).
  split; [intros [E|[E|E]]|split; [intros [E|E]|intros E]]; apply K in E; vm_compute in E; discriminate.
Qed.

Lemma plain_words : forall w, w <> [] -> forallb plain w = true -> word w.
Proof.
  intros w Hn H. split; auto. rewrite forallb_forall in H. apply Forall_forall. intros c Hc. apply plain_word. auto.
Qed.

Lemma digits_plain : forall s n, digits s n -> forallb plain s = true.
Proof.
  intros s n H. induction H as [|s n c d H IH Hd]; [reflexivity|]. rewrite forallb_app. apply andb_true_intro. split; [exact IH|]. now destruct Hd.
Qed.

Lemma show_N_plain : forall n, forallb plain (show_N n) = true.
Proof. intros n. eapply digits_plain. apply show_N_digits. Qed.

Lemma repeat_plain : forall k, forallb plain (repeat "0"%char k) = true.
Proof. induction k; auto. Qed.

Lemma write_decimal_plain : forall d j, forallb plain (write_decimal d j) = true /\ write_decimal d j <> [].
Proof.
  intros d j. unfold write_decimal. pose proof (show_N_plain d) as Hp. pose proof (show_N_some d) as Hn.
  destruct (0 <=? j)%Z; [|destruct (Nat.ltb _ _)].
  - split; [rewrite forallb_app, Hp; apply repeat_plain|]. destruct (show_N d); [congruence|discriminate].
  - set (n := _ - _). rewrite <- (firstn_skipn n (show_N d)) in Hp. rewrite forallb_app in Hp. apply andb_prop in Hp. destruct Hp as [H1 H2].
    split; [|destruct (firstn n (show_N d)); discriminate]. rewrite forallb_app, H1. cbn [forallb]. now rewrite H2.
  - split; [|discriminate]. cbn [forallb]. rewrite forallb_app, Hp, repeat_plain. reflexivity.
Qed.

Lemma show_f64_plain : forall x, show_f64 x <> [] /\ forallb plain (show_f64 x) = true.
Proof.
  intros [s|s| |s m e].
  - destruct s; (split; [intros K; discriminate K|reflexivity]).
  - destruct s; (split; [intros K; discriminate K|reflexivity]).
  - split; [intros K; discriminate K|reflexivity].
  - cbn [show_f64]. destruct (decimal_of m e) as [d j]. destruct (write_decimal_plain d j) as [H1 H2].
    split; [destruct s; [discriminate|exact H2]|]. rewrite forallb_app, H1. now destruct s.
Qed.

Lemma show_f64_word : forall x, word (show_f64 x).
Proof. intros x. destruct (show_f64_plain x). now apply plain_words. Qed.

Lemma word_app : forall a b, word a -> word b -> word (a ++ b).
Proof. intros a b [H1 H2] [H3 H4]. split; [destruct a; [congruence|discriminate]|now apply Forall_app]. Qed.

Lemma lit_word : forall s, s <> ""%string -> forallb plain (lit s) = true -> word (lit s).
Proof. intros s H. apply plain_words. destruct s; [congruence|discriminate]. Qed.

Ltac words :=
  apply Forall_cons; [apply lit_word; [intros K; discriminate K|reflexivity]|];
  repeat (apply Forall_cons; [assumption || apply show_f64_word|]); apply Forall_nil.

(** * Lines *)

Fixpoint spaced (ws : list bytes) : bytes :=
  match ws with
  | [] => []
  | [w] => w
  | w :: ws' => w ++ lit "  " ++ spaced ws'
  end.

Lemma spaced_tokens : forall ws rest ts, Forall word ws -> tokenizes rest ts -> tokenizes (spaced ws ++ nl ++ rest) (ws ++ nl :: ts).
Proof.
  intros ws rest ts H Hr.
  assert (Hn : tokenizes (nl ++ rest) (nl :: ts)) by (cbn; apply tk_line_end; [now left|exact Hr]).
  induction H as [|w ws [Hw1 Hw2] H IH]; [exact Hn|]. destruct ws as [|w' ws].
  - cbn [spaced app]. apply tk_word; auto. intros (_ & K & _). apply K. now left.
  - change (spaced (w :: w' :: ws)) with (w ++ lit "  " ++ spaced (w' :: ws)). rewrite <- !app_assoc.
    change ((w :: w' :: ws) ++ nl :: ts) with (w :: (w' :: ws) ++ nl :: ts). apply tk_word; auto.
    + intros (K & _). apply K. now left.
    + cbn [lit list_ascii_of_string app]. apply tk_separator; [now left|]. apply tk_separator; [now left|exact IH].
Qed.

Lemma unlines_tokens : forall lines, Forall (Forall word) lines ->
  tokenizes (unlines (map spaced lines)) (flat_map (fun l => l ++ [nl]) lines).
Proof.
  intros lines H. induction H as [|l lines Hl H IH]; [constructor|].
  cbn [map unlines flat_map]. rewrite <- !app_assoc. cbn [app]. apply spaced_tokens; auto.
Qed.

(** * One space between words *)

Lemma unwords_tokens : forall ws rest ts, Forall word ws -> tokenizes rest ts -> tokenizes (unwords ws ++ nl ++ rest) (ws ++ nl :: ts).
Proof.
  intros ws rest ts H Hr.
  assert (Hn : tokenizes (nl ++ rest) (nl :: ts)) by (cbn; apply tk_line_end; [now left|exact Hr]).
  induction H as [|w ws [Hw1 Hw2] H IH]; [exact Hn|]. destruct ws as [|w' ws].
  - cbn [unwords app]. apply tk_word; auto. intros (_ & K & _). apply K. now left.
  - change (unwords (w :: w' :: ws)) with (w ++ lit " " ++ unwords (w' :: ws)). rewrite <- !app_assoc.
    change ((w :: w' :: ws) ++ nl :: ts) with (w :: (w' :: ws) ++ nl :: ts). apply tk_word; auto.
    + intros (K & _). apply K. now left.
    + cbn [lit list_ascii_of_string app]. apply tk_separator; [now left|exact IH].
Qed.

Lemma unlines_unwords : forall lines, Forall (Forall word) lines ->
  tokenizes (unlines (map unwords lines)) (flat_map (fun l => l ++ [nl]) lines).
Proof.
  intros lines H. induction H as [|l lines Hl H IH]; [constructor|].
  cbn [map unlines flat_map]. rewrite <- !app_assoc. cbn [app]. apply unwords_tokens; auto.
Qed.

(** * Any tokens *)

(** Every sequence of tokens is that of a text. *)
Definition text_of (ts : list bytes) : bytes := flat_map (fun t => t ++ lit " ") ts.

Lemma text_of_tokens : forall ts, Forall is_token ts -> tokenizes (text_of ts) ts.
Proof.
  intros ts H. induction H as [|t ts Ht H IH]; [constructor|]. cbn [text_of flat_map]. rewrite <- app_assoc.
  assert (K : tokenizes (lit " " ++ text_of ts) ts) by (cbn; apply tk_separator; [now left|exact IH]).
  destruct Ht as [(c & Hc & ->)|(Hn & Hw)].
  - cbn [app]. now apply tk_line_end.
  - apply tk_word; auto. cbn. intros (C & _). apply C. now left.
Qed.

Lemma word_token : forall w, word w -> is_token w.
Proof. intros w [H1 H2]. right. auto. Qed.

Lemma utf8_app : forall a b, valid_utf8 a -> valid_utf8 b -> valid_utf8 (a ++ b).
Proof. intros a b Ha Hb. induction Ha as [|c s Hc Ha IH]; [exact Hb|]. rewrite <- app_assoc. now apply valid_char. Qed.

Lemma text_of_utf8 : forall ts, Forall valid_utf8 ts -> valid_utf8 (text_of ts).
Proof.
  intros ts H. induction H as [|t ts Ht H IH]; [constructor|]. cbn [text_of flat_map]. apply utf8_app; [|exact IH].
  apply utf8_app; [exact Ht|]. apply (valid_char [" "%char] []); constructor. vm_compute. split; discriminate.
Qed.

Lemma plain_utf8 : forall w, forallb plain w = true -> valid_utf8 w.
Proof.
  induction w as [|c w IH]; [constructor|]. cbn [forallb]. intros H. apply andb_prop in H. destruct H as [H1 H2].
  apply (valid_char [c] w); auto. constructor. unfold plain in H1. apply andb_prop in H1. destruct H1 as [H1 _].
  unfold byte_in. apply N.ltb_lt in H1. lia.
Qed.

Lemma show_f64_utf8 : forall x, valid_utf8 (show_f64 x).
Proof. intros x. apply plain_utf8, show_f64_plain. Qed.
