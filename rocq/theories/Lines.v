(** What a line of a file that parses can start with, and carriage returns. *)
From Verif Require Import ObjModel ObjErrorSpec ObjView PlaceSpec LexerProofs ConsumeProofs TextProofs ObjAccept ObjFile ObjTop ObjReach ObjUnique ObjMeaning ObjExtend ObjMore ObjFacts ObjDebug Places.
Local Open Scope list_scope.

(** * What is read from a place on *)

Lemma some_then : forall T libs rest, some_libraries T libs rest -> forall libs' mid, reads_libraries T libs' mid ->
  exists libs'', reads_libraries rest libs'' mid.
Proof.
  intros T libs rest H. induction H as [ts|ts libs rest H IH|ts names mid0 libs rest Hl H IH]; intros libs' mid K.
  - eauto.
  - inversion K; subst; eauto. exfalso. now match goal with X : nl <> nl /\ _ |- _ => destruct X as [X _]; apply X end.
  - inversion K; subst.
    + match goal with X : reads_line ts _ _ |- _ => destruct (line_det _ _ _ _ _ Hl X) as [<- <-] end. eauto.
    + exfalso. now match goal with X : _ /\ ?a <> ?a |- _ => destruct X as [_ X]; apply X end.
Qed.

(** The rest of a file: libraries or objects. *)
Inductive goes_on (rest : list bytes) : Prop :=
| on_libraries libs mid : reads_libraries rest libs mid ->
    (match rest with t :: _ => t = nl \/ t = lit "mtllib" | [] => False end) -> goes_on rest
| on_objects c os : reads_objects c rest os [] -> goes_on rest
| on_body base now ss mid : reads_body base now rest ss mid -> (exists c os, reads_objects c mid os []) -> goes_on rest.

Lemma between_goes_on : forall T f rest, reads_file T f [] -> between T rest -> goes_on rest.
Proof.
  intros T f rest Hf [(libs & H)|(done & cur & H)].
  - assert (K : exists mid, (exists libs', reads_libraries T libs' mid) /\
      ((exists os, reads_objects no_counts mid os []) \/
       exists ss mid', reads_body no_counts no_counts mid ss mid' /\ exists c os, reads_objects c mid' os [])).
    { inversion Hf; subst; eauto 12. }
    destruct K as (mid & (libs' & Hl) & K). destruct (some_then _ _ _ H _ _ Hl) as (libs'' & Hl').
    inversion Hl' as [ts l r X|ts names m l r X Y|ts X]; subst.
    + eapply on_libraries; [exact Hl'|now left].
    + eapply on_libraries; [exact Hl'|now right].
    + destruct K as [(os & K)|(ss & mid' & K & c & os & K')]; [eapply on_objects|eapply on_body]; eauto.
  - pose proof (reaches_file _ _ _ _ H f Hf) as K. destruct cur as [[n ss]|].
    + destruct K as (ss' & mid & more & _ & Hb & Ho). eapply on_body; eauto.
    + destruct K as (more & _ & [K|(_ & _ & ss & mid & os & _ & Hb & Ho)]); [eapply on_objects|eapply on_body]; eauto.
Qed.

Definition first_words : list bytes := nl :: lit "o" :: lit "mtllib" :: keywords.

Lemma statement_word : forall base now t ts s rest, reads_statement base now (t :: ts) s rest -> In t keywords.
Proof. intros base now t ts s rest H. inversion H; subst; cbn; tauto. Qed.

Lemma goes_on_word : forall t rest, goes_on (t :: rest) -> In t first_words.
Proof.
  intros t rest H. destruct H as [libs mid _ H|c os H|base now ss mid H K].
  - cbn. destruct H as [-> | ->]; tauto.
  - inversion H; subst. cbn. tauto.
  - inversion H as [now1 ts1 He|now1 ts1 ss1 rest1 Hb|now1 ts1 s mid1 ss1 rest1 Hs Hb]; subst.
    + cbn in He. subst t. cbn. tauto.
    + cbn. tauto.
    + apply statement_word in Hs. unfold first_words. cbn [In]. tauto.
Qed.

(** The places where a line starts. *)
Definition line_place (T rest : list bytes) : Prop := T = rest \/ exists before, T = before ++ nl :: rest.

Lemma place_starts : forall T f rest, reads_file T f [] -> Forall drawable (file_objects f) -> line_place T rest ->
  between T rest \/ exists rest', rest = nl :: rest'.
Proof.
  intros T f rest Hf HF [->|(before & ->)].
  - left. left. exists []. apply some_none.
  - destruct (file_lines _ _ _ Hf HF) as [H|(b & r & done & _ & -> & _)]; [now left|right; eauto].
Qed.

Lemma first_word : forall T f t rest, reads_file T f [] -> Forall drawable (file_objects f) -> line_place T (t :: rest) -> In t first_words.
Proof.
  intros T f t rest Hf HF H. destruct (place_starts _ _ _ Hf HF H) as [K|(r & E)].
  - eapply goes_on_word, between_goes_on; eauto.
  - injection E as -> _. now left.
Qed.

(** * A carriage return behind a line *)

Definition cr : bytes := [CR].

Lemma body_not_cr : forall base now rest ss mid, reads_body base now (cr :: rest) ss mid -> False.
Proof.
  intros base now rest ss mid H. inversion H as [now1 ts1 He|now1 ts1 ss1 rest1 Hb|now1 ts1 s mid1 ss1 rest1 Hs Hb]; subst.
  - discriminate He.
  - apply statement_word in Hs. vm_compute in Hs. intuition discriminate.
Qed.

Lemma optional_args : forall d args rest x r, Forall (fun t => exists x, float_token t x) args -> reads_optional d (args ++ cr :: rest) x r ->
  exists args', (args = [] /\ args' = [] \/ exists t, args = t :: args') /\ r = args' ++ cr :: rest.
Proof.
  intros d args rest x r HF H. destruct args as [|t args]; cbn in H.
  - exists []. split; [now left|]. inversion H; subst; auto. match goal with K : float_token cr _ |- _ => vm_compute in K; discriminate K end.
  - exists args. inversion HF; subst. split; [right; now exists t|]. inversion H; subst; auto.
    exfalso. destruct H2 as (y & Hy). now match goal with K : forall x, ~ _ |- _ => apply (K y) end.
Qed.

Lemma simple_not_cr : forall line rest, simple_line line -> goes_on (line ++ cr :: rest) -> False.
Proof.
  intros line rest HL H.
  assert (Hb : (exists base now ss mid, reads_body base now (line ++ cr :: rest) ss mid /\ exists c os, reads_objects c mid os []) \/
    exists c os, reads_objects c (line ++ cr :: rest) os []).
  { destruct H as [libs mid _ H|c os H|base now ss mid H K]; eauto 10. exfalso.
    inversion HL; subst; cbn in H; destruct H as [H|H]; discriminate H. }
  assert (Hc : forall x, ~ float_token cr x) by (intros x K; vm_compute in K; discriminate K).
  destruct Hb as [(base & now & ss & mid & Hb & c & os & Ho)|(c & os & Ho)].
  - assert (Hst : line <> [] -> hd [] line <> lit "o" -> line <> [] /\ exists s mid1 ss1, reads_statement base now (line ++ cr :: rest) s mid1 /\ reads_body base (count now s) mid1 ss1 mid).
    { intros Hn Hh. split; auto. destruct line as [|t line]; [congruence|]. cbn in Hh.
      inversion Hb as [now1 ts1 He|now1 ts1 ss1 rest1 Hb'|now1 ts1 s mid1 ss1 rest1 Hs Hb']; subst; eauto.
      - cbn in He. congruence.
      - exfalso. inversion HL. }
    inversion HL as [E|args HF L E|args HF L E|args L E|args L E|name E|name E]; subst line; cbn [app] in *.
    + eapply body_not_cr; eauto.
    + destruct Hst as (_ & s & mid1 & ss1 & Hs & Hb'); [discriminate|discriminate|]. inversion Hs; subst.
      destruct args as [|a1 [|a2 [|a3 args]]]; cbn in *;
        match goal with E1 : _ :: _ :: _ :: _ = _ |- _ => inversion E1; subst end; try (exfalso; eapply Hc; eassumption).
      inversion HF as [|? ? _ HF1]; subst. inversion HF1 as [|? ? _ HF2]; subst. inversion HF2 as [|? ? _ HF3]; subst.
      match goal with K : reads_optional _ _ _ _ |- _ => destruct (optional_args _ _ _ _ _ HF3 K) as (args' & Ha & ->) end.
      assert (args' = []) as -> by (destruct Ha as [[_ ->]|(t & ->)]; auto; cbn in L; destruct args'; auto; cbn in L; lia).
      eapply body_not_cr; eauto.
    + destruct Hst as (_ & s & mid1 & ss1 & Hs & Hb'); [discriminate|discriminate|]. inversion Hs; subst.
      destruct args as [|a1 args]; cbn in *;
        match goal with E1 : _ :: _ = _ |- _ => inversion E1; subst end; try (exfalso; eapply Hc; eassumption).
      inversion HF as [|? ? _ HF1]; subst.
      match goal with K : reads_optional _ _ v ?m, K' : reads_optional _ ?m w _ |- _ =>
        destruct (optional_args _ _ _ _ _ HF1 K) as (args' & Ha & ->);
        assert (HF2 : Forall (fun t => exists x, float_token t x) args') by (destruct Ha as [[_ ->]|(t & ->)]; auto; now inversion HF1);
        destruct (optional_args _ _ _ _ _ HF2 K') as (args'' & Ha' & ->) end.
      assert (args'' = []) as ->.
      { destruct Ha as [[_ ->]|(t & ->)]; destruct Ha' as [[_ ->]|(t' & Et)]; auto; [discriminate Et|]. subst args'. cbn in L. destruct args''; auto; cbn in L; lia. }
      eapply body_not_cr; eauto.
    + destruct Hst as (_ & s & mid1 & ss1 & Hs & Hb'); [discriminate|discriminate|]. inversion Hs; subst.
      destruct args as [|a1 [|a2 [|a3 [|a4 args]]]]; cbn in *; try lia;
        match goal with E1 : _ :: _ :: _ :: _ = _ |- _ => inversion E1; subst end; try (exfalso; eapply Hc; eassumption).
      eapply body_not_cr; eauto.
    + destruct Hst as (_ & s & mid1 & ss1 & Hs & Hb'); [discriminate|discriminate|]. inversion Hs; subst.
      destruct args as [|a1 [|a2 args]]; cbn in *; try lia;
        match goal with E1 : _ :: _ = _ |- _ => inversion E1; subst end.
      * match goal with K : smoothing_token _ _ |- _ => inversion K as [|? ? K']; subst; vm_compute in K'; discriminate K' end.
      * eapply body_not_cr; eauto.
    + destruct Hst as (_ & s & mid1 & ss1 & Hs & Hb'); [discriminate|discriminate|]. inversion Hs; subst. eapply body_not_cr; eauto.
    + inversion Hb as [now1 ts1 He|now1 ts1 ss1 rest1 Hb'|now1 ts1 s mid1 ss1 rest1 Hs Hb']; subst.
      * inversion Ho.
      * apply statement_word in Hs. vm_compute in Hs. intuition discriminate.
  - inversion HL; subst; cbn [app] in Ho; inversion Ho.
Qed.

(** * Texts *)

Lemma tokenizes_break : forall c, line_end c -> forall x tx y ty, tokenizes x tx -> tokenizes y ty ->
  tokenizes (x ++ c :: y) (tx ++ [c] :: ty).
Proof.
  intros e He x tx y ty H Hy. induction H as [|c s ts Hc H IH|c s ts Hc H IH|text s ts Ht Hs H IH|w s ts Hn Hw Hs H IH].
  - cbn. now apply tk_line_end.
  - cbn. now apply tk_separator.
  - cbn. now apply tk_line_end.
  - cbn. rewrite <- app_assoc. apply tk_comment; auto. destruct s; cbn in *; auto.
  - cbn. rewrite <- app_assoc. apply tk_word; auto. destruct s; cbn in *; auto.
    intros (_ & K & _). now apply K.
Qed.

Lemma parsed_file : forall dbg input set T, fits input -> parse dbg input = Ok set -> tokenizes input T ->
  exists f, reads_file T f [] /\ Forall drawable (file_objects f) /\ set = file_means f.
Proof.
  intros dbg input set T Hf P HT. assert (P' : parse false input = Ok set).
  { destruct dbg; auto. destruct (parse_debug input Hf) as [[_ E]|[_ E]]; congruence. }
  apply parse_ok_iff in P'; auto. destruct P' as (ts & f & K & H). rewrite (tokenizes_det _ _ _ HT K). eauto.
Qed.

(** The tokens of a text around a line. *)
Lemma line_tokens_place : forall input line rest tl tr, at_line input line rest ->
  tokenizes (line ++ rest) (tl ++ tr) -> exists T, tokenizes input T /\ line_place T (tl ++ tr).
Proof.
  intros input line rest tl tr (_ & [->|(before & ->)]) H.
  - exists (tl ++ tr). split; auto. now left.
  - exists (lex before ++ nl :: tl ++ tr). split; [|right; eauto]. apply (tokenizes_break LF); [now left|apply lex_tokenizes|exact H].
Qed.

Lemma line_rest : forall line rest tl, tokenizes line tl -> starts_with line_end rest -> exists tr, tokenizes (line ++ rest) (tl ++ tr).
Proof.
  intros line rest tl H Hr. destruct rest as [|c rest].
  - exists []. now rewrite !app_nil_r.
  - exists ([c] :: lex rest). apply tokenizes_break; auto. apply lex_tokenizes.
Qed.

Theorem parsed_first_word : forall dbg input set line rest t ts, fits input -> parse dbg input = Ok set ->
  at_line input line rest -> starts_with line_end rest -> tokenizes line (t :: ts) ->
  In t (lit "o" :: lit "mtllib" :: keywords).
Proof.
  intros dbg input set line rest t ts Hf P HL Hr Ht.
  destruct (line_rest _ _ _ Ht Hr) as (tr & Htr). destruct (line_tokens_place _ _ _ _ _ HL Htr) as (T & HT & HP).
  destruct (parsed_file _ _ _ _ Hf P HT) as (f & Rf & HF & _). destruct (first_word _ _ _ _ Rf HF HP) as [<-|K]; [|exact K].
  exfalso. destruct HL as [HL _]. clear - Ht HL. remember (nl :: ts) as u eqn:E. revert E.
  induction Ht as [|c s us Hc H IH|c s us Hc H IH|text s us Hx Hs H IH|w s us Hw Hfw Hs H IH]; intros E.
  - discriminate.
  - inversion HL; subst. auto.
  - inversion HL; subst. contradiction.
  - inversion HL as [|? ? ? K]; subst. apply Forall_app in K. apply IH; tauto.
  - injection E as -> _. apply Forall_app in HL. destruct HL as [HL _]. inversion HL as [|? ? K]; subst. apply K. now left.
Qed.

Theorem first_word_list : forall dbg input set line rest t ts, fits input -> parse dbg input = Ok set ->
  at_line input line rest -> starts_with line_end rest -> tokenizes line (t :: ts) ->
  In t [lit "o"; lit "mtllib"; lit "g"; lit "s"; lit "usemtl"; lit "v"; lit "vt"; lit "vn"; lit "p"; lit "l"; lit "f"].
Proof.
  intros dbg input set line rest t ts Hf P HL Hr Ht. pose proof (parsed_first_word _ _ _ _ _ _ _ Hf P HL Hr Ht) as K.
  unfold keywords in K. cbn [In] in *. tauto.
Qed.

Theorem parsed_lines : forall dbg input set before rest, fits input -> parse dbg input = Ok set ->
  tokenizes input (before ++ nl :: rest) -> line_starts (before ++ nl :: rest) before rest.
Proof.
  intros dbg input set before rest Hf P HT. destruct (parsed_file _ _ _ _ Hf P HT) as (f & Rf & HF & _). eapply file_lines; eauto.
Qed.

Theorem carriage_return_line : forall dbg input set line rest ts, fits input -> at_line input line (CR :: rest) ->
  tokenizes line ts -> simple_line ts -> parse dbg input <> Ok set.
Proof.
  intros dbg input set line rest ts Hf HL Ht Hs P.
  assert (Htr : tokenizes (line ++ CR :: rest) (ts ++ cr :: lex rest)) by (apply tokenizes_break; auto; [now right|apply lex_tokenizes]).
  destruct (line_tokens_place _ _ _ _ _ HL Htr) as (T & HT & HP).
  destruct (parsed_file _ _ _ _ Hf P HT) as (f & Rf & HF & _).
  destruct (place_starts _ _ _ Rf HF HP) as [K|(r & E)].
  - eapply simple_not_cr; eauto. eapply between_goes_on; eauto.
  - inversion Hs; subst; discriminate E.
Qed.

Lemma crlf_app : forall a b, crlf (a ++ b) = crlf a ++ crlf b.
Proof. intros a b. induction a as [|c a IH]; cbn; auto. destruct (Ascii.eqb c LF); cbn; now rewrite IH. Qed.

Lemma crlf_same : forall a, Forall (fun c => c <> LF) a -> crlf a = a.
Proof.
  intros a H. induction H as [|c a Hc H IH]; cbn; auto. destruct (Ascii.eqb_spec c LF); [contradiction|]. now rewrite IH.
Qed.

Theorem crlf_line : forall dbg x set line rest ts, fits (crlf x) -> at_line x line (LF :: rest) ->
  tokenizes line ts -> simple_line ts -> parse dbg (crlf x) <> Ok set.
Proof.
  intros dbg x set line rest ts Hf (Hl & Hx) Ht Hs. apply (carriage_return_line dbg _ set line (LF :: crlf rest) ts); auto. split; auto.
  assert (E : crlf line = line).
  { apply crlf_same. eapply Forall_impl; [|exact Hl]. intros c Hc ->. apply Hc. now left. }
  destruct Hx as [->|(before & ->)].
  - left. rewrite crlf_app, E. reflexivity.
  - right. exists (crlf before ++ [CR]). rewrite crlf_app. change (crlf (LF :: line ++ LF :: rest)) with (CR :: LF :: crlf (line ++ LF :: rest)).
    rewrite crlf_app, E, <- app_assoc. reflexivity.
Qed.
