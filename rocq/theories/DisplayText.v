(** The texts of [Display] are exactly those of DisplayTextSpec.v. *)
From Coq Require Import Floats.SpecFloat.
From Verif Require Import ObjModel DisplayModel DisplayTextSpec DisplayProofs FmtProofs FmtText DebugProofs ObjTop ObjFacts ObjProps TextProofs ObjMore TokenSpec PrettyText.
Local Open Scope char_scope.
Local Open Scope list_scope.

(** * Exactly one text *)

Lemma show_numeral : forall n, numeral (show_N n) n.
Proof. intros n. split; [apply plain_show_N|apply show_N_digits]. Qed.

Lemma numeral_one : forall s s' n, numeral s n -> numeral s' n -> s = s'.
Proof. intros s s' n [P D] [P' D']. now apply plain_unique with n. Qed.

Lemma show_position : forall dbg k, (N.of_nat k < usize_max)%N -> exists s, option_map show_N (add_one dbg k) = Some s /\ position s k.
Proof.
  intros dbg k H. unfold add_one. apply N.ltb_lt in H. rewrite H. eexists. split; [reflexivity|]. unfold position.
  replace (N.of_nat (S k)) with (N.of_nat k + 1)%N by lia. apply show_numeral.
Qed.

Lemma show_index_text : forall dbg i, index_usize i -> exists s, show_vtn_index dbg i = Some s /\ index_text s i.
Proof.
  intros dbg i H. unfold index_usize in H.
  destruct i as [v|v t|v n|v t n]; cbn [index_vertex index_texture index_normal] in H; unfold show_vtn_index;
    destruct (show_position dbg v ltac:(auto)) as (a & -> & Ha);
    try destruct (show_position dbg t ltac:(auto)) as (b & -> & Hb); try destruct (show_position dbg n ltac:(auto)) as (c & -> & Hc);
    cbn [join piece]; eexists; (split; [reflexivity|]); rewrite ?app_nil_r.
  - now constructor.
  - change (lit "/" ++ b) with ("/" :: b). now constructor.
  - change (lit "//" ++ c) with ("/" :: "/" :: c). now constructor.
  - change (lit "/" ++ b ++ lit "/" ++ c) with ("/" :: b ++ "/" :: c). now constructor.
Qed.

Lemma position_one : forall s s' k, position s k -> position s' k -> s = s'.
Proof. intros s s' k. apply numeral_one. Qed.

Ltac same_positions := repeat match goal with
  | A : position ?a ?k, B : position ?b ?k |- _ => assert (a = b) by (exact (position_one _ _ _ A B)); subst b; clear B
  end.

Lemma index_one : forall s s' i, index_text s i -> index_text s' i -> s = s'.
Proof. intros s s' i H H'. destruct H; inversion H'; subst; same_positions; reflexivity. Qed.

Lemma show_element_text : forall dbg e, Forall index_usize (corners (draw_element e)) -> exists s, show_element dbg e = Some s /\ element_text s e.
Proof.
  intros dbg e H. destruct e as [i|i j|i j k]; cbn [draw_element corners] in H;
    repeat match goal with K : Forall _ (_ :: _) |- _ => inversion K as [|? ? ? ?]; clear K; subst end; unfold show_element;
    repeat match goal with K : index_usize ?i |- context [show_vtn_index dbg ?i] =>
      let s := fresh "s" in let E := fresh "E" in let T := fresh "T" in destruct (show_index_text dbg i K) as (s & E & T); rewrite E end;
    cbn [join piece]; eexists; (split; [reflexivity|]); rewrite ?app_nil_r; now constructor.
Qed.

Ltac same_indices := repeat match goal with
  | A : index_text ?a ?k, B : index_text ?b ?k |- _ => assert (a = b) by (exact (index_one _ _ _ A B)); subst b; clear B
  end.

Lemma element_one : forall s s' e, element_text s e -> element_text s' e -> s = s'.
Proof. intros s s' e H H'. destruct H; inversion H'; subst; same_indices; reflexivity. Qed.

Lemma show_smoothing_text : forall n, exists s, show_smoothing_group n = Some s /\ smoothing_text s n.
Proof.
  intros n. unfold show_smoothing_group. destruct (N.eqb_spec n 0) as [->|N0].
  - eexists. split; [reflexivity|]. constructor.
  - eexists. split; [reflexivity|]. apply text_smoothing; [exact N0|apply show_numeral].
Qed.

Lemma smoothing_one : forall s s' n, smoothing_text s n -> smoothing_text s' n -> s = s'.
Proof. intros s s' n H H'. destruct H; inversion H'; subst; try congruence. eapply numeral_one; eauto. Qed.

Lemma number_one : forall s s' x, is_f64 x -> number_text s x -> number_text s' x -> s = s'.
Proof. intros s s' x F H H'. apply show_number_text in H, H'; auto. congruence. Qed.

Ltac same_numbers := repeat match goal with
  | F : is_f64 ?k, A : number_text ?a ?k, B : number_text ?b ?k |- _ => assert (a = b) by (exact (number_one _ _ _ F A B)); subst b; clear B
  end.

Lemma show_vertex_one : forall v, vertex_f64 v -> exists s, show_vertex v = Some s /\ vertex_text s v.
Proof.
  intros [x y z w] (F1 & F2 & F3 & F4). cbn [vx vy vz vw] in *. eexists. split; [reflexivity|]. cbn [vx vy vz vw]. rewrite app_nil_r.
  constructor; now apply show_number_text.
Qed.

Lemma vertex_one : forall s s' v, vertex_f64 v -> vertex_text s v -> vertex_text s' v -> s = s'.
Proof. intros s s' v (F1 & F2 & F3 & F4) H H'. destruct H. inversion H'; subst. cbn [vx vy vz vw] in *. same_numbers. reflexivity. Qed.

Lemma show_texture_one : forall v, texture_f64 v -> exists s, show_texture_vertex v = Some s /\ texture_text s v.
Proof.
  intros [x y z] (F1 & F2 & F3). cbn [tu tv tw] in *. eexists. split; [reflexivity|]. cbn [tu tv tw]. rewrite app_nil_r.
  constructor; now apply show_number_text.
Qed.

Lemma texture_one : forall s s' v, texture_f64 v -> texture_text s v -> texture_text s' v -> s = s'.
Proof. intros s s' v (F1 & F2 & F3) H H'. destruct H. inversion H'; subst. cbn [tu tv tw] in *. same_numbers. reflexivity. Qed.

Lemma show_normal_one : forall v, normal_f64 v -> exists s, show_normal_vertex v = Some s /\ normal_text s v.
Proof.
  intros [x y z] (F1 & F2 & F3). cbn [nx ny nz] in *. eexists. split; [reflexivity|]. cbn [nx ny nz]. rewrite app_nil_r.
  constructor; now apply show_number_text.
Qed.

Lemma normal_one : forall s s' v, normal_f64 v -> normal_text s v -> normal_text s' v -> s = s'.
Proof. intros s s' v (F1 & F2 & F3) H H'. destruct H. inversion H'; subst. cbn [nx ny nz] in *. same_numbers. reflexivity. Qed.

(** ** Lists *)

Lemma last_in : forall A (l : list A) x, In (last l x) (x :: l).
Proof. intros A l. induction l as [|a l IH]; intros x; [now left|]. right. destruct l as [|b l]; [now left|]. change (last (a :: b :: l) x) with (last (b :: l) x).
  assert (E : forall (k : list A) b d d', last (b :: k) d = last (b :: k) d') by (induction k; intros; [reflexivity|]; cbn [last] in *; auto).
  rewrite (E l b x a). apply IH. Qed.

Lemma last_nth : forall A (l : list A) x, nth_error (x :: l) (length (x :: l) - 1) = Some (last l x).
Proof.
  intros A. induction l as [|b l IH]; intros x; [reflexivity|]. specialize (IH b). cbn [length] in *. rewrite Nat.sub_succ, Nat.sub_0_r in *.
  change (nth_error (x :: b :: l) (S (length l))) with (nth_error (b :: l) (length l)). rewrite IH. f_equal. clear.
  revert b x. induction l as [|c l IH]; intros b x; [reflexivity|]. destruct l; [reflexivity|]. exact (IH b x).
Qed.

Lemma show_list_text : forall A (show : A -> option bytes) (P : bytes -> A -> Prop) title l,
  (forall x, In x l -> exists s, show x = Some s /\ P s x) -> exists s, compose_set show l title = Some s /\ list_text title P s l.
Proof.
  intros A show P title [|x l] H.
  - eexists. split; [reflexivity|]. match goal with |- list_text _ _ ?s _ => replace s with (unlines [lit "    " ++ lit title ++ lit " set:"; lit "        data: [" ++ [] ++ lit "]"; lit "        length: " ++ show_nat 0]) end.
    + constructor; [constructor|]. apply show_numeral.
    + unfold unlines. cbn [flat_map app length]. rewrite <- !app_assoc. reflexivity.
  - destruct (H x (or_introl eq_refl)) as (a & Ea & Ha). destruct (H _ (last_in A l x)) as (b & Eb & Hb).
    unfold compose_set, show_at. rewrite last_nth, Eb. cbn [nth_error]. rewrite Ea. cbn [join piece newline]. eexists. split; [reflexivity|].
    match goal with |- list_text _ _ ?s _ => replace s with (unlines [lit "    " ++ lit title ++ lit " set:";
      lit "        data: [" ++ (lit "(" ++ a ++ lit ") ... (" ++ b ++ lit ")") ++ lit "]"; lit "        length: " ++ show_nat (length (x :: l))]) end.
    + constructor; [now constructor|]. apply show_numeral.
    + unfold unlines. cbn [flat_map]. rewrite !app_nil_r, <- !app_assoc. reflexivity.
Qed.

Lemma list_one : forall A (P : bytes -> A -> Prop) title s s' l, (forall x a b, In x l -> P a x -> P b x -> a = b) ->
  list_text title P s l -> list_text title P s' l -> s = s'.
Proof.
  intros A P title s s' l F H H'. destruct H as [d n l D N]. inversion H' as [d' n' l' D' N']; subst.
  assert (n = n') by (eapply numeral_one; eauto). subst n'. assert (d = d'); [|now subst].
  destruct D as [|a b x l Ha Hb]; inversion D' as [|a' b' x' l' Ha' Hb']; subst; [reflexivity|].
  assert (a = a') by (apply (F x); auto; now left). assert (b = b') by (apply (F (last l x)); auto; apply last_in). now subst.
Qed.

Lemma show_object_text : forall dbg ob, showable ob -> exists s, show_object dbg ob = Some s /\ object_text s ob.
Proof.
  intros dbg ob (F1 & F2 & F3 & F4). rewrite Forall_forall in F1, F2, F3, F4.
  destruct (show_list_text _ show_vertex vertex_text "vertex" (vertex_set ob)) as (sv & Ev & Hv); [intros; apply show_vertex_one; auto|].
  destruct (show_list_text _ show_texture_vertex texture_text "texture vertex" (texture_vertex_set ob)) as (st & Et & Ht); [intros; apply show_texture_one; auto|].
  destruct (show_list_text _ show_normal_vertex normal_text "normal vertex" (normal_vertex_set ob)) as (sn & En & Hn); [intros; apply show_normal_one; auto|].
  destruct (show_list_text _ show_group group_text "group" (group_set ob)) as (sg & Eg & Hg); [intros; eexists; split; reflexivity|].
  destruct (show_list_text _ show_smoothing_group smoothing_text "smoothing group" (smoothing_group_set ob)) as (ss & Es & Hs); [intros; apply show_smoothing_text|].
  destruct (show_list_text _ (show_element dbg) element_text "element" (element_set ob)) as (se & Ee & He); [intros; apply show_element_text; auto|].
  unfold show_object, compose. rewrite Ev, Et, En, Eg, Es, Ee. cbn [join piece newline]. eexists. split; [reflexivity|].
  match goal with |- object_text ?s _ => replace s with (unlines [lit "Object {"; lit "    name: " ++ name ob] ++ sv ++ st ++ sn ++ sg ++ ss ++ se ++ unlines [lit "}}"]) end.
  - now constructor.
  - unfold unlines. cbn [flat_map]. rewrite !app_nil_r, <- !app_assoc. reflexivity.
Qed.

Lemma object_one : forall s s' ob, showable ob -> object_text s ob -> object_text s' ob -> s = s'.
Proof.
  intros s s' ob (F1 & F2 & F3 & F4) H H'. rewrite Forall_forall in F1, F2, F3, F4. destruct H as [ob sv st sn sg ss se Hv Ht Hn Hg Hs He].
  inversion H' as [ob' sv' st' sn' sg' ss' se' Hv' Ht' Hn' Hg' Hs' He']; subst.
  assert (sv = sv') by (eapply list_one; [|exact Hv|exact Hv']; intros; eapply vertex_one; eauto).
  assert (st = st') by (eapply list_one; [|exact Ht|exact Ht']; intros; eapply texture_one; eauto).
  assert (sn = sn') by (eapply list_one; [|exact Hn|exact Hn']; intros; eapply normal_one; eauto).
  assert (sg = sg') by (eapply list_one; [|exact Hg|exact Hg']; intros x a b _ -> ->; reflexivity).
  assert (ss = ss') by (eapply list_one; [|exact Hs|exact Hs']; intros; eapply smoothing_one; eauto).
  assert (se = se') by (eapply list_one; [|exact He|exact He']; intros; eapply element_one; eauto).
  now subst.
Qed.

Lemma exactly : forall A (show : option bytes) (P : bytes -> A -> Prop) x, (exists s, show = Some s /\ P s x) -> (forall s s', P s x -> P s' x -> s = s') ->
  forall t, show = Some t <-> P t x.
Proof. intros A show P x (s & -> & H) O t. split; [intros E; injection E as <-; exact H|]. intros K. f_equal. now apply O. Qed.

Theorem index_exactly : forall dbg i t, index_usize i -> show_vtn_index dbg i = Some t <-> index_text t i.
Proof. intros dbg i t H. apply exactly; [now apply show_index_text|intros; eapply index_one; eauto]. Qed.

Theorem element_exactly : forall dbg e t, Forall index_usize (corners (draw_element e)) -> show_element dbg e = Some t <-> element_text t e.
Proof. intros dbg e t H. apply exactly; [now apply show_element_text|intros; eapply element_one; eauto]. Qed.

Theorem smoothing_exactly : forall n t, show_smoothing_group n = Some t <-> smoothing_text t n.
Proof. intros n t. apply exactly; [apply show_smoothing_text|intros; eapply smoothing_one; eauto]. Qed.

Theorem object_exactly : forall dbg ob t, showable ob -> show_object dbg ob = Some t <-> object_text t ob.
Proof. intros dbg ob t H. apply exactly; [now apply show_object_text|intros; eapply object_one; eauto]. Qed.

Theorem set_exactly : forall dbg set t, Forall showable (objects set) -> show_object_set dbg set = Some t <-> set_text t set.
Proof.
  intros dbg set t H. apply exactly.
  - assert (K : exists ts, map (show_object dbg) (objects set) = map Some ts /\ Forall2 object_text ts (objects set)).
    { induction H as [|ob obs Hob _ (ts & E & F)]; [exists []; split; [reflexivity|constructor]|].
      destruct (show_object_text dbg ob Hob) as (s & Es & Hs). exists (s :: ts). split; [cbn [map]; now rewrite Es, E|now constructor]. }
    destruct K as (ts & E & F). exists (unlines [lit "ObjectSet {"] ++ unlines ts ++ unlines [lit "}"]). split; [now apply show_set_objects|now constructor].
  - intros s s' K K'. destruct K as [set ts F]. inversion K' as [set' ts' F']; subst. assert (ts = ts'); [|now subst]. clear K' t.
    revert ts F ts' F'. induction H as [|ob obs Hob _ IH]; intros ts F ts' F'; inversion F; inversion F'; subst; [reflexivity|].
    f_equal; [eapply object_one; eauto|auto].
Qed.

Lemma parsed_showable : forall dbg input set, fits input -> ObjModel.parse dbg input = Ok set -> Forall showable (objects set).
Proof.
  intros dbg input set Hf H. apply Forall_forall. intros ob Hin. destruct (parsed_f64 _ _ _ _ Hf H Hin) as (F1 & F2 & F3).
  repeat (split; [assumption|]). apply Forall_forall. intros e He. eapply parsed_usize; eauto.
Qed.

(** * What the text determines *)

Lemma line_split : forall a b r r' : list ascii, ~ In LF a -> ~ In LF b -> a ++ LF :: r = b ++ LF :: r' -> a = b /\ r = r'.
Proof.
  induction a as [|c a IH]; intros [|d b] r r' Ha Hb E; cbn [app] in E.
  - injection E as ->. auto.
  - injection E as <- _. exfalso. apply Hb. now left.
  - injection E as -> _. exfalso. apply Ha. now left.
  - injection E as -> E. destruct (IH b r r') as [-> ->]; auto; intros K; [apply Ha|apply Hb]; now right.
Qed.

(** A closing bracket and a blank behind it stand at the end only. *)
Fixpoint no_gap (a : list ascii) : Prop :=
  match a with
  | [] => True
  | c :: r => (c = ")" -> match r with [] => True | d :: _ => d <> " " end) /\ no_gap r
  end.

Lemma gap_split : forall a b r r' : list ascii, no_gap a -> no_gap b -> a ++ ")" :: " " :: r = b ++ ")" :: " " :: r' -> a = b /\ r = r'.
Proof.
  induction a as [|c a IH]; intros [|d b] r r' Ha Hb E; cbn [app] in E.
  - injection E as ->. auto.
  - injection E as <- E. destruct b as [|e b]; cbn [app] in E; [discriminate E|]. injection E as <- _. destruct Hb as [Hb _]. now destruct (Hb eq_refl).
  - injection E as -> E. destruct a as [|e a]; cbn [app] in E; [discriminate E|]. injection E as -> _. destruct Ha as [Ha _]. now destruct (Ha eq_refl).
  - injection E as -> E. destruct (IH b r r') as [-> ->]; auto; [apply Ha|apply Hb].
Qed.

Lemma no_blank_gap : forall a : list ascii, ~ In " " a -> no_gap a.
Proof.
  induction a as [|c a IH]; intros H; [exact I|]. split; [|apply IH; intros K; apply H; now right].
  intros _. destruct a as [|d a]; [exact I|]. intros ->. apply H. right. now left.
Qed.

Lemma no_bracket_gap : forall a : list ascii, ~ In ")" a -> no_gap a.
Proof.
  induction a as [|c a IH]; intros H; [exact I|]. split; [|apply IH; intros K; apply H; now right]. intros ->. exfalso. apply H. now left.
Qed.

Definition entry (a : list ascii) : Prop := ~ In LF a /\ no_gap a.

Lemma simply_free : forall s c, simply s -> simple c = false -> ~ In c s.
Proof. intros s c H E K. apply Forall_forall with (x := c) in H; [congruence|exact K]. Qed.

Lemma numeral_simply : forall s n, numeral s n -> simply s.
Proof. intros s n [_ D]. eapply simply_digits; eauto. Qed.

Lemma show_f64_simply : forall x, simply (show_f64 x).
Proof.
  intros [s|s| |s m e]; cbn [show_f64]; try (destruct s; now apply simply_check); [now apply simply_check|]. destruct (decimal_of m e) as [d j].
  apply simply_app; [destruct s; now apply simply_check|apply simply_decimal].
Qed.

Lemma number_simply : forall s x, is_f64 x -> number_text s x -> simply s.
Proof. intros s x F H. apply show_number_text in H; auto. subst. apply show_f64_simply. Qed.

Lemma number_inj : forall s x y, is_f64 x -> is_f64 y -> number_text s x -> number_text s y -> x = y.
Proof.
  intros s x y Fx Fy Hx Hy. apply show_number_text in Hx, Hy; auto. subst s. apply (f_equal parse_f64) in Hy. rewrite !show_f64_read in Hy by auto. congruence.
Qed.

Lemma numeral_inj : forall s n n', numeral s n -> numeral s n' -> n = n'.
Proof. intros s n n' [_ D] [_ D']. apply NumberProofs.digits_val_digits in D, D'. congruence. Qed.

Lemma position_inj : forall s k k', position s k -> position s k' -> k = k'.
Proof. intros s k k' H H'. pose proof (numeral_inj _ _ _ H H'). lia. Qed.

(** Simple bytes up to a blank or the end. *)
Lemma simple_split : forall a b r r' : list ascii, simply a -> simply b -> (r = [] \/ exists t, r = " " :: t) -> (r' = [] \/ exists t, r' = " " :: t) ->
  a ++ r = b ++ r' -> a = b /\ r = r'.
Proof.
  induction a as [|c a IH]; intros [|d b] r r' Ha Hb Hr Hr' E; cbn [app] in E; auto.
  - exfalso. inversion Hb as [|? ? K]; subst. destruct Hr as [E|(t & E)]; [discriminate E|]. injection E as -> _. discriminate K.
  - exfalso. inversion Ha as [|? ? K]; subst. destruct Hr' as [E|(t & E)]; [discriminate E|]. injection E as -> _. discriminate K.
  - injection E as -> E. inversion Ha; inversion Hb; subst. destruct (IH b r r') as [-> ->]; auto.
Qed.

Definition digital (s : list ascii) : Prop := Forall (fun c => c <> "/") s.

Lemma digital_position : forall s k, position s k -> digital s.
Proof. intros s k [_ D]. induction D as [|s n c d _ IH Hc]; [constructor|]. apply Forall_app. split; [exact IH|]. constructor; [|constructor]. destruct Hc; discriminate. Qed.

Lemma position_some : forall s k, position s k -> exists c t, s = c :: t /\ c <> "/".
Proof.
  intros s k H. pose proof (digital_position s k H) as D. destruct H as [[->|(c & t & -> & _)] _]; [now exists "0", []|]. inversion D; subst. eauto.
Qed.

Lemma slash_split : forall a b r r' : list ascii, digital a -> digital b -> a ++ "/" :: r = b ++ "/" :: r' -> a = b /\ r = r'.
Proof.
  induction a as [|c a IH]; intros [|d b] r r' Ha Hb E; cbn [app] in E.
  - injection E as ->. auto.
  - injection E as <- _. inversion Hb; congruence.
  - injection E as -> _. inversion Ha; congruence.
  - injection E as -> E. inversion Ha; inversion Hb; subst. destruct (IH b r r') as [-> ->]; auto.
Qed.

Lemma slash_none : forall a b r : list ascii, digital a -> a = b ++ "/" :: r -> False.
Proof. intros a b r H ->. apply Forall_app in H. destruct H as [_ H]. inversion H; congruence. Qed.

Lemma index_inj : forall s i i', index_text s i -> index_text s i' -> i = i'.
Proof.
  intros s i i' H H'. destruct H as [a v A|a b v t A B|a b v n A B|a b c v t n A B C];
    inversion H' as [a' v' A' E|a' b' v' t' A' B' E|a' b' v' n' A' B' E|a' b' c' v' t' n' A' B' C' E]; subst;
    try (match goal with K : position (_ ++ "/" :: _) _ |- _ => destruct (slash_none _ _ _ (digital_position _ _ K) eq_refl) end).
  - f_equal. eapply position_inj; eauto.
  - apply slash_split in E; [|eapply digital_position; eassumption ..]. destruct E as [-> ->]. f_equal; eapply position_inj; eauto.
  - apply slash_split in E; [|eapply digital_position; eassumption ..]. destruct E as [-> E]. destruct (position_some _ _ B) as (x & y & -> & N). congruence.
  - apply slash_split in E; [|eapply digital_position; eassumption ..]. destruct E as [-> E]. exfalso. eapply slash_none; [eapply digital_position; exact B|]. symmetry. exact E.
  - apply slash_split in E; [|eapply digital_position; eassumption ..]. destruct E as [-> E]. destruct (position_some _ _ B') as (x & y & -> & N). congruence.
  - apply slash_split in E; [|eapply digital_position; eassumption ..]. destruct E as [-> E]. injection E as ->. f_equal; eapply position_inj; eauto.
  - apply slash_split in E; [|eapply digital_position; eassumption ..]. destruct E as [-> E]. destruct (position_some _ _ B') as (x & y & -> & N). cbn [app] in E. congruence.
  - apply slash_split in E; [|eapply digital_position; eassumption ..]. destruct E as [-> E]. exfalso. eapply slash_none; [eapply digital_position; exact B'|]. exact E.
  - apply slash_split in E; [|eapply digital_position; eassumption ..]. destruct E as [-> E]. destruct (position_some _ _ B) as (x & y & -> & N). cbn [app] in E. congruence.
  - apply slash_split in E; [|eapply digital_position; eassumption ..]. destruct E as [-> E]. apply slash_split in E; [|eapply digital_position; eassumption ..].
    destruct E as [-> ->]. f_equal; eapply position_inj; eauto.
Qed.

Lemma simply_index : forall s i, index_text s i -> simply s.
Proof.
  intros s i H. destruct H; repeat match goal with K : position _ _ |- _ => apply numeral_simply in K end; auto;
    repeat first [apply simply_app; [assumption|]|assumption|constructor; [reflexivity|]].
Qed.

(** ** Texts with blanks between them *)

Lemma blank_split : forall a b r r' : list ascii, simply a -> simply b -> a ++ lit "  " ++ r = b ++ lit "  " ++ r' -> a = b /\ r = r'.
Proof.
  intros a b r r' Ha Hb E. apply simple_split in E; auto; try (right; eexists; reflexivity). destruct E as [-> E].
  change (" " :: " " :: r = " " :: " " :: r') in E. injection E as ->. auto.
Qed.

Ltac split_blanks E := repeat (apply blank_split in E; [|solve [eauto using number_simply, simply_index] ..]; let E1 := fresh in destruct E as [E1 E]; subst).
Ltac drop E := repeat match type of E with lit _ ++ _ = lit _ ++ _ => apply app_inv_head in E end.

Lemma vertex_inj : forall s v v', vertex_f64 v -> vertex_f64 v' -> vertex_text s v -> vertex_text s v' -> v = v'.
Proof.
  intros s v v' (F1 & F2 & F3 & F4) (F1' & F2' & F3' & F4') H H'. destruct H as [a b c d x y z w A B C D]. inversion H' as [a' b' c' d' x' y' z' w' A' B' C' D' E]; subst.
  cbn [vx vy vz vw] in *. drop E. split_blanks E. subst. f_equal; eapply number_inj; eauto.
Qed.

Lemma texture_inj : forall s v v', texture_f64 v -> texture_f64 v' -> texture_text s v -> texture_text s v' -> v = v'.
Proof.
  intros s v v' (F1 & F2 & F3) (F1' & F2' & F3') H H'. destruct H as [a b c x y z A B C]. inversion H' as [a' b' c' x' y' z' A' B' C' E]; subst.
  cbn [tu tv tw] in *. drop E. split_blanks E. subst. f_equal; eapply number_inj; eauto.
Qed.

Lemma normal_inj : forall s v v', normal_f64 v -> normal_f64 v' -> normal_text s v -> normal_text s v' -> v = v'.
Proof.
  intros s v v' (F1 & F2 & F3) (F1' & F2' & F3') H H'. destruct H as [a b c x y z A B C]. inversion H' as [a' b' c' x' y' z' A' B' C' E]; subst.
  cbn [nx ny nz] in *. drop E. split_blanks E. subst. f_equal; eapply number_inj; eauto.
Qed.

Lemma element_inj : forall s e e', element_text s e -> element_text s e' -> e = e'.
Proof.
  intros s e e' H H'. destruct H as [a i A|a b i j A B|a b c i j k A B C];
    inversion H' as [a' i' A' E|a' b' i' j' A' B' E|a' b' c' i' j' k' A' B' C' E]; subst; try discriminate E; drop E; split_blanks E; subst; f_equal; eapply index_inj; eauto.
Qed.

Lemma smoothing_inj : forall s n n', smoothing_text s n -> smoothing_text s n' -> n = n'.
Proof.
  assert (O : forall n, ~ numeral (lit "off") n).
  { intros n [_ D]. apply NumberProofs.digits_val_digits in D. discriminate D. }
  intros s n n' H H'. destruct H as [|s n N0 H]; inversion H' as [|s' m N1 K]; subst; [reflexivity| |destruct (O _ H)|eapply numeral_inj; eauto].
  destruct (O _ K).
Qed.

(** ** Entries of lists *)

Lemma spaced_entry : forall s : list ascii, Forall (fun c => simple c = true \/ c = " ") s -> entry s.
Proof.
  intros s H. rewrite Forall_forall in H. split; [|apply no_bracket_gap]; intros K; apply H in K; destruct K as [K|K]; discriminate K.
Qed.

Lemma spaced_app : forall a b : list ascii, Forall (fun c => simple c = true \/ c = " ") a -> Forall (fun c => simple c = true \/ c = " ") b ->
  Forall (fun c => simple c = true \/ c = " ") (a ++ b).
Proof. intros a b Ha Hb. now apply Forall_app. Qed.

Lemma spaced_simply : forall s, simply s -> Forall (fun c => simple c = true \/ c = " ") s.
Proof. intros s. apply Forall_impl. auto. Qed.

Ltac spaced := apply spaced_entry; repeat (apply spaced_app; [first [apply spaced_simply; solve [eauto using number_simply, simply_index]|
  repeat (constructor; [solve [left; reflexivity|right; reflexivity]|]); constructor]|]); apply spaced_simply; solve [eauto using number_simply, simply_index].

Lemma vertex_entry : forall s v, vertex_f64 v -> vertex_text s v -> entry s.
Proof. intros s v (F1 & F2 & F3 & F4) H. destruct H. cbn [vx vy vz vw] in *. spaced. Qed.

Lemma texture_entry : forall s v, texture_f64 v -> texture_text s v -> entry s.
Proof. intros s v (F1 & F2 & F3) H. destruct H. cbn [tu tv tw] in *. spaced. Qed.

Lemma normal_entry : forall s v, normal_f64 v -> normal_text s v -> entry s.
Proof. intros s v (F1 & F2 & F3) H. destruct H. cbn [nx ny nz] in *. spaced. Qed.

Lemma element_entry : forall s e, element_text s e -> entry s.
Proof. intros s e H. destruct H; spaced. Qed.

Lemma smoothing_entry : forall s n, smoothing_text s n -> entry s.
Proof.
  intros s n H. apply spaced_entry, spaced_simply. destruct H; [now apply simply_check|eapply numeral_simply; eauto].
Qed.

(** ** Lists *)

Lemma last_cons : forall A (l : list A) x d, last (x :: l) d = last l x.
Proof.
  assert (E : forall A (k : list A) b d d', last (b :: k) d = last (b :: k) d').
  { intros A. induction k as [|c k IH]; intros b d d'; [reflexivity|]. exact (IH c d d'). }
  intros A [|b l] x d; [reflexivity|]. exact (E A l b d x).
Qed.

Lemma list_text_form : forall A title (P : bytes -> A -> Prop) s l, list_text title P s l -> exists d n, data_text P d l /\ numeral n (N.of_nat (length l)) /\
  forall r, s ++ r = (lit "    " ++ lit title ++ lit " set:" ++ LF :: lit "        data: [") ++ d ++ lit "]" ++ LF :: lit "        length: " ++ n ++ LF :: r.
Proof.
  intros A title P s l H. destruct H as [d n l D N]. exists d, n. split; [exact D|]. split; [exact N|]. intros r. unfold unlines, nl. cbn [flat_map].
  rewrite <- !app_assoc. reflexivity.
Qed.

Lemma list_split : forall A title (P : bytes -> A -> Prop) (D : A -> Prop) s s' l l' r r', (forall x a, D x -> P a x -> entry a) ->
  (forall x y a, D x -> D y -> P a x -> P a y -> x = y) -> Forall D l -> Forall D l' -> list_text title P s l -> list_text title P s' l' ->
  s ++ r = s' ++ r' -> alike l l' /\ r = r'.
Proof.
  intros A title P D s s' l l' r r' HE HI Dl Dl' H H' E.
  destruct (list_text_form _ _ _ _ _ H) as (d & n & T & N & F). destruct (list_text_form _ _ _ _ _ H') as (d' & n' & T' & N' & F').
  rewrite F, F' in E. apply app_inv_head in E. clear F F' H H'.
  assert (L : forall q q' : list ascii, lit "        length: " ++ n ++ LF :: q = lit "        length: " ++ n' ++ LF :: q' -> length l = length l' /\ q = q').
  { intros q q' K. apply app_inv_head in K. apply line_split in K; [|eapply simply_free; [eapply numeral_simply; eassumption|reflexivity] ..].
    destruct K as [-> ->]. split; [|reflexivity]. pose proof (numeral_inj _ _ _ N N'). lia. }
  destruct T as [|a b x l Ha Hb], T' as [|a' b' x' l' Ha' Hb']; try (exfalso; rewrite ?app_assoc in E; discriminate E).
  - apply (app_inv_head (lit "]" ++ [LF]) (lit "        length: " ++ n ++ LF :: r)) in E. apply L in E. destruct E as [_ ->]. split; [|reflexivity].
    repeat split; reflexivity.
  - rewrite Forall_forall in Dl, Dl'.
    assert (D1 : D x) by (apply Dl; now left). assert (D1' : D x') by (apply Dl'; now left).
    assert (D2 : D (last l x)) by (apply Dl, last_in). assert (D2' : D (last l' x')) by (apply Dl', last_in).
    destruct (HE _ _ D1 Ha) as [A1 A2], (HE _ _ D2 Hb) as [B1 B2], (HE _ _ D1' Ha') as [A1' A2'], (HE _ _ D2' Hb') as [B1' B2'].
    rewrite <- !app_assoc in E. apply app_inv_head in E. change (lit ") ... (") with (")" :: " " :: lit "... (") in E. rewrite <- !app_comm_cons in E.
    apply gap_split in E; auto. destruct E as [-> E]. apply app_inv_head in E.
    assert (K : (b ++ lit ")]") ++ LF :: lit "        length: " ++ n ++ LF :: r = (b' ++ lit ")]") ++ LF :: lit "        length: " ++ n' ++ LF :: r').
    { rewrite <- !app_assoc. exact E. }
    apply line_split in K.
    + destruct K as [Kb K]. apply app_inv_tail in Kb. subst b'. apply L in K. destruct K as [K ->]. split; [|reflexivity].
      split; [exact K|]. split; [cbn; f_equal; eapply HI; eauto|]. intros d. rewrite !last_cons. eapply HI; eauto.
    + intros I. apply in_app_or in I. destruct I as [I|I]; [auto|]. destruct I as [I|[I|[]]]; discriminate I.
    + intros I. apply in_app_or in I. destruct I as [I|I]; [auto|]. destruct I as [I|[I|[]]]; discriminate I.
Qed.

(** ** Objects *)

(** The names objects can have: a line end can only be alone. *)
Definition named (n : list ascii) : Prop := ~ In LF n \/ n = [LF].

Lemma name_split : forall n n' r r' : list ascii, named n -> named n' -> n ++ LF :: " " :: r = n' ++ LF :: " " :: r' -> n = n' /\ r = r'.
Proof.
  intros n n' r r' [H| ->] [H'| ->] E.
  - apply line_split in E; auto. destruct E as [-> E]. injection E as ->. auto.
  - exfalso. change ([LF] ++ LF :: " " :: r') with ([] ++ LF :: LF :: " " :: r') in E. apply line_split in E; auto. destruct E as [_ E]. discriminate E.
  - exfalso. change ([LF] ++ LF :: " " :: r) with ([] ++ LF :: LF :: " " :: r) in E. apply line_split in E; auto. destruct E as [_ E]. discriminate E.
  - injection E as ->. auto.
Qed.

Definition tidy (ob : object) : Prop := showable ob /\ named (name ob) /\ Forall (fun g => entry g) (group_set ob).

Lemma list_blank : forall A title (P : bytes -> A -> Prop) s l, list_text title P s l -> exists t, s = " " :: t.
Proof. intros A title P s l H. destruct H. unfold unlines. cbn [flat_map]. rewrite <- !app_assoc. eexists. reflexivity. Qed.

Lemma object_split : forall s s' ob ob' r r', tidy ob -> tidy ob' -> object_text s ob -> object_text s' ob' -> s ++ r = s' ++ r' -> objects_alike ob ob' /\ r = r'.
Proof.
  intros s s' ob ob' r r' ((F1 & F2 & F3 & F4) & N & G) ((F1' & F2' & F3' & F4') & N' & G') H H' E.
  destruct H as [ob sv st sn sg ss se Hv Ht Hn Hg Hs He]. destruct H' as [ob' sv' st' sn' sg' ss' se' Hv' Ht' Hn' Hg' Hs' He'].
  destruct (list_blank _ _ _ _ _ Hv) as (tv & Ev). destruct (list_blank _ _ _ _ _ Hv') as (tv' & Ev').
  assert (K : name ob ++ LF :: " " :: tv ++ st ++ sn ++ sg ++ ss ++ se ++ unlines [lit "}}"] ++ r =
    name ob' ++ LF :: " " :: tv' ++ st' ++ sn' ++ sg' ++ ss' ++ se' ++ unlines [lit "}}"] ++ r').
  { rewrite Ev, Ev' in E. apply (app_inv_head (lit "Object {" ++ LF :: lit "    name: ")). rewrite <- !app_assoc in E.
    unfold unlines at 1 3 in E. cbn [flat_map] in E. unfold nl in E. rewrite <- !app_assoc in E. exact E. }
  clear E. apply name_split in K; auto. destruct K as [En K].
  assert (E : sv ++ st ++ sn ++ sg ++ ss ++ se ++ unlines [lit "}}"] ++ r = sv' ++ st' ++ sn' ++ sg' ++ ss' ++ se' ++ unlines [lit "}}"] ++ r').
  { rewrite Ev, Ev'. cbn [app]. f_equal. exact K. }
  clear K. unfold objects_alike.
  apply (list_split _ _ _ vertex_f64 _ _ _ _ _ _ (fun x a => vertex_entry a x) (fun x y a => vertex_inj a x y) F1 F1' Hv Hv') in E. destruct E as [A1 E].
  apply (list_split _ _ _ texture_f64 _ _ _ _ _ _ (fun x a => texture_entry a x) (fun x y a => texture_inj a x y) F2 F2' Ht Ht') in E. destruct E as [A2 E].
  apply (list_split _ _ _ normal_f64 _ _ _ _ _ _ (fun x a => normal_entry a x) (fun x y a => normal_inj a x y) F3 F3' Hn Hn') in E. destruct E as [A3 E].
  apply (list_split _ _ _ (fun g => entry g) _ _ _ _ _ _ ltac:(intros x a D ->; exact D) ltac:(intros x y a _ _ -> ->; reflexivity) G G' Hg Hg') in E. destruct E as [A4 E].
  apply (list_split _ _ _ (fun _ => True) _ _ _ _ _ _ (fun x a _ => smoothing_entry a x) (fun x y a _ _ => smoothing_inj a x y)
    ltac:(apply Forall_forall; auto) ltac:(apply Forall_forall; auto) Hs Hs') in E. destruct E as [A5 E].
  apply (list_split _ _ _ (fun _ => True) _ _ _ _ _ _ (fun x a _ => element_entry a x) (fun x y a _ _ => element_inj a x y)
    ltac:(apply Forall_forall; auto) ltac:(apply Forall_forall; auto) He He') in E. destruct E as [A6 E].
  apply app_inv_head in E. tauto.
Qed.

Lemma objects_split : forall ts obs ts' obs', Forall tidy obs -> Forall tidy obs' -> Forall2 object_text ts obs -> Forall2 object_text ts' obs' ->
  unlines ts ++ unlines [lit "}"] = unlines ts' ++ unlines [lit "}"] -> Forall2 objects_alike obs obs'.
Proof.
  intros ts obs ts' obs' T T' H. revert ts' obs' T'.
  induction H as [|s ob ts obs Hs _ IH]; intros ts' obs' T' H' E; inversion H' as [|s' ob' ts1 obs1 Hs' H1]; subst; [constructor|exfalso|exfalso|].
  - destruct Hs'. discriminate E.
  - destruct Hs. discriminate E.
  - inversion T; inversion T'; subst.
    assert (K : s ++ LF :: unlines ts ++ unlines [lit "}"] = s' ++ LF :: unlines ts1 ++ unlines [lit "}"]).
    { unfold unlines in E at 1 3. cbn [flat_map] in E. unfold nl in E at 1 3. rewrite <- !app_assoc in E. exact E. }
    apply (object_split s s' ob ob') in K; auto. destruct K as [A K]. injection K as K. constructor; [exact A|]. eapply IH; eauto.
Qed.

Lemma token_named : forall t, is_token t -> named t /\ (t <> nl -> entry t).
Proof.
  intros t [(c & [->| ->] & ->)|(_ & W)].
  - split; [now right|]. intros K. now contradiction K.
  - split; [left; intros [K|[]]; discriminate K|]. intros _. split; [intros [K|[]]; discriminate K|]. now apply no_blank_gap; intros [K|[]].
  - rewrite Forall_forall in W. split; [left|intros _; split; [|apply no_blank_gap]]; intros K; apply W in K; destruct K as (K1 & K2 & _);
      [apply K2; now left|apply K2; now left|apply K1; now left].
Qed.

Lemma parsed_tidy : forall dbg input set, fits input -> ObjModel.parse dbg input = Ok set -> Forall tidy (objects set).
Proof.
  intros dbg input set Hf H. pose proof (parsed_showable _ _ _ Hf H) as S. apply Forall_forall. intros ob Hin. rewrite Forall_forall in S.
  split; [now apply S|]. destruct (statements_of _ _ _ Hf H ob Hin) as (i & n & ss & base & ts & f & Ht & Hr & Hi & ->).
  destruct (file_names _ _ Hr) as (_ & _ & K). destruct (K i n ss Hi) as (K0 & K1 & K2). split.
  - cbn [object_of name]. destruct K0 as [K0|[_ ->]]; [|left; intros []]. apply token_named. now apply (tokens_are _ _ Ht).
  - apply Forall_forall. intros g Hg. cbn [object_of group_set] in Hg. apply declared_in in Hg. destruct Hg as [->|Hg].
    + apply spaced_entry, spaced_simply. now apply simply_check.
    + apply token_named; [|intros ->; auto]. apply (tokens_are _ _ Ht). apply K1.
      apply in_flat_map in Hg. destruct Hg as (s & Hs & Hn). apply in_flat_map. exists s. split; auto. destruct s; cbn in *; try tauto.
Qed.

Theorem set_determines : forall dbg dbg' dbg1 dbg1' input input' a b t, fits input -> fits input' ->
  ObjModel.parse dbg input = Ok a -> ObjModel.parse dbg' input' = Ok b -> show_object_set dbg1 a = Some t -> show_object_set dbg1' b = Some t ->
  Forall2 objects_alike (objects a) (objects b).
Proof.
  intros dbg dbg' dbg1 dbg1' input input' a b t Hf Hf' Ha Hb Sa Sb.
  pose proof (parsed_tidy _ _ _ Hf Ha) as Ta. pose proof (parsed_tidy _ _ _ Hf' Hb) as Tb.
  apply set_exactly in Sa; [|exact (parsed_showable _ _ _ Hf Ha)]. apply set_exactly in Sb; [|exact (parsed_showable _ _ _ Hf' Hb)].
  destruct Sa as [a ts Fa]. inversion Sb as [b' ts' Fb E]; subst. symmetry in E. exact (objects_split _ _ _ _ Ta Tb Fa Fb E).
Qed.

Lemma list_alike : forall A title (P : bytes -> A -> Prop) s l l', alike l l' -> list_text title P s l -> list_text title P s l'.
Proof.
  intros A title P s l l' (L & F & K) H. destruct H as [d n l D N]. constructor; [|now rewrite <- L]. destruct D as [|a b x l Ha Hb]; destruct l' as [|x' l']; try discriminate.
  - constructor.
  - cbn in F. injection F as <-. specialize (K x). rewrite !last_cons in K. constructor; [exact Ha|]. now rewrite <- K.
Qed.

Lemma object_alike : forall s ob ob', objects_alike ob ob' -> object_text s ob -> object_text s ob'.
Proof.
  intros s ob ob' (N & A1 & A2 & A3 & A4 & A5 & A6) H. destruct H. rewrite N. constructor; eapply list_alike; eauto.
Qed.

Theorem parsed_alike : forall dbg dbg' dbg1 dbg1' input input' a b, fits input -> fits input' ->
  ObjModel.parse dbg input = Ok a -> ObjModel.parse dbg' input' = Ok b ->
  show_object_set dbg1 a = show_object_set dbg1' b <-> Forall2 objects_alike (objects a) (objects b).
Proof.
  intros dbg dbg' dbg1 dbg1' input input' a b Hf Hf' Ha Hb.
  pose proof (parsed_showable _ _ _ Hf Ha) as Sa. pose proof (parsed_showable _ _ _ Hf' Hb) as Sb.
  assert (K : exists t, show_object_set dbg1 a = Some t).
  { destruct (show_object_set dbg1 a) eqn:E; [eauto|]. now apply (parsed_set_shown _ dbg1 _ _ Hf Ha) in E. }
  destruct K as (t & Et). split.
  - intros E. rewrite Et in E. symmetry in E. now apply (set_determines dbg dbg' dbg1 dbg1' input input' a b t).
  - intros F. rewrite Et. symmetry. apply set_exactly; [exact Sb|]. apply set_exactly in Et; [|exact Sa]. destruct Et as [a ts Ft]. constructor.
    clear - F Ft. revert ts Ft. induction F as [|x y xs ys Hxy _ IH]; intros ts Ft; inversion Ft; subst; constructor; [eapply object_alike; eauto|auto].
Qed.

Theorem error_exactly : forall K (e : parse_error K) t, show_parse_error e = t <->
  exists n, numeral n (N.of_nat (err_line_number e)) /\ t = lit "Parse error at line " ++ n ++ lit ": " ++ err_message e.
Proof.
  intros K e t. split.
  - intros <-. exists (show_nat (err_line_number e)). split; [apply show_numeral|reflexivity].
  - intros (n & H & ->). unfold show_parse_error. do 2 f_equal. eapply numeral_one; [apply show_numeral|exact H].
Qed.
