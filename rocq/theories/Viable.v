(** What is in front of an error can be completed to a text that parses. *)
From Verif Require Import ObjModel ObjErrorSpec ObjView PlaceSpec LexerProofs ConsumeProofs TextProofs ObjAccept ObjFile ObjTop
  ObjReach ObjUnique ObjMeaning ObjExtend ObjFacts ObjMore Places Lines ObjCut.
Local Open Scope list_scope.

Section More.
  (** What is added behind a newline. *)
  Context (tl : list bytes) (Htl : match tl with [] => True | t :: _ => t <> nl /\ t <> lit "mtllib" end).

  Lemma libraries_extend : forall ts libs rest, reads_libraries ts libs rest ->
    (rest <> [] /\ reads_libraries (ts ++ nl :: tl) libs (rest ++ nl :: tl)) \/ (rest = [] /\ reads_libraries (ts ++ nl :: tl) libs tl).
  Proof.
    intros ts libs rest H. induction H as [ts libs rest H IH|ts names mid libs rest Hl H IH|ts He].
    - destruct IH as [(K1 & K2)|(K1 & K2)]; [left|right]; split; auto; now apply libraries_blank.
    - destruct (line_extend tl _ _ _ Hl) as [K|(-> & K)].
      + destruct IH as [(K1 & K2)|(K1 & K2)]; [left|right]; split; auto; eapply libraries_line; eauto.
      + right. inversion H; subst. split; auto. eapply libraries_line; eauto. now apply libraries_end.
    - destruct ts as [|t ts].
      + right. split; auto. cbn. apply libraries_blank. now apply libraries_end.
      + left. split; [discriminate|]. now apply libraries_end.
  Qed.

  Lemma end_app : forall r x, r <> [] -> at_object_end r -> at_object_end (r ++ x).
  Proof. intros [|t r] x H; [contradiction|]. auto. Qed.

  Lemma reaches_extend : forall T done cur r, reaches T done cur r ->
    (r <> [] -> reaches (T ++ nl :: tl) done cur (r ++ nl :: tl)) /\
    (r = [] -> cur <> None -> reaches (T ++ nl :: tl) done cur tl).
  Proof.
    intros T done cur r H.
    induction H as [libs rest H|rest H IH Hn|done name rest H IH|done [name ss] rest H IH|done name ss s mid rest H IH Hs|done [name ss] rest H IH He Hd].
    - split; [|congruence]. intros Hr. destruct (libraries_extend _ _ _ H) as [(_ & K)|(K & _)]; [|contradiction]. eapply reaches_start; eauto.
    - assert (Hr : rest <> []) by (intros ->; apply Hn; exact I). split; [|contradiction]. intros _. apply reaches_unnamed; [now apply IH|].
      destruct rest; auto.
    - destruct IH as [IH _]. specialize (IH ltac:(discriminate)). cbn in IH. apply reaches_named in IH. split; auto.
      intros -> _. now apply reaches_blank.
    - destruct IH as [IH _]. specialize (IH ltac:(discriminate)). cbn in IH. apply reaches_blank in IH. split; auto.
      intros -> _. now apply reaches_blank.
    - assert (Hm : mid <> []) by (intros ->; eapply statement_end; [exact Hs|exact I]). destruct IH as [IH _]. specialize (IH Hm).
      destruct (statement_extend tl _ _ _ _ _ Hs) as [K|(-> & K)].
      + split.
        * intros _. eapply reaches_statement; eauto.
        * intros -> _. apply reaches_blank. eapply reaches_statement; eauto.
      + split; [congruence|]. intros _ _. eapply reaches_statement; eauto.
    - split; [|congruence]. intros Hr. apply reaches_end; [now apply IH|now apply end_app|exact Hd].
  Qed.
End More.

(** A material for the last object. *)
Definition use : list bytes := [lit "usemtl"; lit "m"].

Lemma use_ok : match use with [] => True | t :: _ => t <> nl /\ t <> lit "mtllib" end.
Proof. split; discriminate. Qed.

Lemma complete_open : forall U done n ss, reaches U done (Some (n, ss)) use -> exists f, reads_file U f [] /\ Forall drawable (file_objects f).
Proof.
  intros U done n ss H. apply reads_file_reaches.
  assert (K : reaches U done (Some (n, ss ++ [SUse (lit "m")])) []) by (eapply reaches_statement; [exact H|constructor]).
  exists (done ++ [(n, ss ++ [SUse (lit "m")])]). apply reaches_end; [exact K|exact I|].
  exists (SUse (lit "m")). split; [cbn; rewrite in_app_iff; right; now left|]. right. eauto.
Qed.

Lemma complete : forall u done cur, reaches u done cur [] -> exists f, reads_file (u ++ nl :: use) f [] /\ Forall drawable (file_objects f).
Proof.
  intros u done cur H. destruct cur as [[n ss]|].
  - destruct (reaches_extend use use_ok _ _ _ _ H) as [_ K]. eapply complete_open. apply K; [reflexivity|discriminate].
  - inversion H as [libs rest Hl|?|?|?|?|done' [n ss] rest K1 K2 K3]; subst.
    + destruct (libraries_extend use use_ok _ _ _ Hl) as [(K & _)|(_ & K)]; [congruence|]. eapply complete_open.
      apply reaches_unnamed; [eapply reaches_start; exact K|]. cbn. discriminate.
    + destruct (reaches_extend use use_ok _ _ _ _ K1) as [_ K]. eapply complete_open. apply K; [reflexivity|discriminate].
Qed.

Lemma complete_cut : forall T done cur u v, reaches T done cur v -> T = u ++ v ->
  exists f, reads_file (u ++ nl :: use) f [] /\ Forall drawable (file_objects f).
Proof.
  intros T done cur u v H E. destruct (reaches_cut v _ _ _ _ H u [] E eq_refl) as [K|(_ & _ & _ & K)]; eapply complete; eauto.
Qed.

Lemma complete_text : forall T done cur x tx v, reaches T done cur v -> T = tx ++ v -> tokenizes x tx ->
  fits (x ++ LF :: lit "usemtl m") -> exists set, parse false (x ++ LF :: lit "usemtl m") = Ok set.
Proof.
  intros T done cur x tx v H E Hx Hf. destruct (complete_cut _ _ _ _ _ H E) as (f & K1 & K2). exists (file_means f).
  apply parse_says_iff; auto. exists f. split; auto. exists (tx ++ nl :: use). split; auto.
  apply tokenizes_newline; auto. apply tokenizes_iff. vm_compute. reflexivity.
Qed.

Lemma fits_shorter : forall a b c, fits ((a ++ b) ++ c) -> fits (a ++ c).
Proof. intros a b c. unfold fits. rewrite !app_length. lia. Qed.

Theorem error_viable : forall dbg input e, fits (input ++ LF :: lit "usemtl m") -> parse dbg input = Err e ->
  exists x y z tx ty tz, input = x ++ y ++ z /\
    tokenizes x tx /\ tokenizes y ty /\ tokenizes z tz /\ tokenizes input (tx ++ ty ++ tz) /\
    fails_at (tx ++ ty ++ tz) (ty ++ tz) (err_kind e, err_message e) tz /\
    line_after x <= err_line_number e <= line_after x + 1 /\
    exists set, parse false (x ++ LF :: lit "usemtl m") = Ok set.
Proof.
  intros dbg input e Hf P. assert (Hf' : fits input) by (revert Hf; unfold fits; rewrite app_length; lia).
  destruct (error_place _ _ _ Hf' P) as (x & y & z & tx & ty & tz & -> & Hx & Hy & Hz & Ht & Ha & _ & Hl).
  exists x, y, z, tx, ty, tz. do 7 (split; [assumption || reflexivity|]). apply fits_shorter in Hf.
  destruct Ha as [(done & n & ss & K & _)|(done & K & _)]; eapply complete_text; eauto.
Qed.

Theorem panic_viable : forall input p, fits (input ++ LF :: lit "usemtl m") -> parse false input = Panic p ->
  exists x rest tx ts done o, input = x ++ rest /\ tokenizes x tx /\ tokenizes rest ts /\ tokenizes input (tx ++ ts) /\ at_object_end ts /\
    reaches (tx ++ ts) done (Some o) ts /\ ~ drawable o /\
    exists set, parse false (x ++ LF :: lit "usemtl m") = Ok set.
Proof.
  intros input p Hf P. assert (Hf' : fits input) by (revert Hf; unfold fits; rewrite app_length; lia).
  apply panic_place in P; auto. destruct P as (_ & T & done & o & rest & HT & K & He & Hd).
  destruct (reaches_suffix _ _ _ _ K) as (u & ->). destruct (tokenizes_split _ _ HT _ _ eq_refl) as (x & y & -> & Hx & Hy).
  exists x, y, u, rest, done, o. do 7 (split; [assumption || reflexivity|]). apply fits_shorter in Hf. eapply complete_text; eauto.
Qed.

(** Cut behind any line in front of the error. *)
Lemma two_splits : forall A (a b c d : list A) t, a ++ b = c ++ t :: d -> (exists e, a = c ++ t :: e) \/ (exists e, c = a ++ e).
Proof.
  induction a as [|x a IH]; intros b c d t E; cbn in E.
  - right. exists c. reflexivity.
  - destruct c as [|y c]; cbn in E; injection E as -> E.
    + left. exists a. reflexivity.
    + destruct (IH _ _ _ _ E) as [(e & ->)|(e & ->)]; [left|right]; exists e; reflexivity.
Qed.

Theorem lines_viable : forall dbg p z e ts, fits (p ++ LF :: z ++ LF :: lit "usemtl m") -> parse dbg (p ++ LF :: z) = Err e ->
  line_after p + 1 < err_line_number e -> tokenizes p ts -> (forall before, ts <> before ++ [lit "o"]) ->
  exists set, parse false (p ++ LF :: LF :: lit "usemtl m") = Ok set.
Proof.
  intros dbg p z e ts Hf P Hl Hp Ho.
  assert (Hf' : fits ((p ++ LF :: z) ++ LF :: lit "usemtl m")) by (rewrite <- app_assoc; exact Hf).
  assert (Hs : fits (p ++ LF :: LF :: lit "usemtl m")) by (revert Hf; unfold fits; rewrite !app_length; cbn; rewrite app_length; cbn; lia).
  destruct (error_viable _ _ _ Hf' P) as (x & y & w & tx & ty & tw & Ei & Hx & Hy & Hw & _ & _ & Hlx & set & Ps).
  assert (Hp' : exists q, x = p ++ LF :: q).
  { symmetry in Ei. destruct (two_splits _ _ _ _ _ _ Ei) as [H|(q & E)]; auto. exfalso. subst p. rewrite line_after_app in Hl. lia. }
  destruct Hp' as (q & ->). rewrite <- app_assoc in Ps. cbn [app] in Ps.
  assert (Hfx : fits (p ++ LF :: q ++ LF :: lit "usemtl m")).
  { revert Hf'. rewrite Ei. unfold fits. rewrite !app_length. cbn. rewrite !app_length. cbn. lia. }
  apply parse_says_iff in Ps; auto. destruct Ps as (f & (T & HT & Hr) & HF & _).
  rewrite (tokenizes_det _ _ _ HT (tokenizes_newline _ _ _ _ Hp (lex_tokenizes _))) in Hr. set (v := lex (q ++ LF :: lit "usemtl m")) in *.
  destruct (file_lines _ _ _ Hr HF) as [K|(b & r & done & E & _)]; [|destruct (Ho _ E)].
  assert (ET : ts ++ nl :: v = (ts ++ [nl]) ++ v) by (now rewrite <- app_assoc).
  assert (C : exists g, reads_file ((ts ++ [nl]) ++ nl :: use) g [] /\ Forall drawable (file_objects g)).
  { destruct K as [(libs & K)|(done & cur & K)].
    - rewrite ET in K. apply (some_libraries_cut v (ts ++ [nl]) libs []) in K. apply (complete (ts ++ [nl]) [] None).
      apply (reaches_start _ libs). eapply some_libraries_all; eauto.
    - eapply complete_cut; eauto. }
  destruct C as (g & G1 & G2). exists (file_means g). apply parse_says_iff; auto. exists g. split; auto. exists ((ts ++ [nl]) ++ nl :: use).
  split; auto. rewrite <- app_assoc. cbn [app]. apply tokenizes_newline; auto. apply (tokenizes_newline [] []); [constructor|].
  apply tokenizes_iff. vm_compute. reflexivity.
Qed.
