(** The texts of the types of the crate are such trees. *)
From Coq Require Import Lia Floats.SpecFloat.
From Verif Require Import PrettyModel PrettySpec DebugProofs DebugText PrettyProofs PrettyOnly NumberSpec FmtProofs FmtText FloatSpec ObjTypes ObjModel ObjTop DebugSpec.
From Verif Require MtlTypes MtlModel.
Local Open Scope char_scope.
Local Open Scope list_scope.

(** [p] is the text on several lines, [c] the one on one line. *)
Definition represented (p c : bytes) : Prop := exists t, (good t /\ fine t) /\ pretty t = p /\ plain t = c.

Lemma represented_unbroken : forall p c, represented p c -> unbroken p = c.
Proof. intros p c (t & [G _] & <- & <-). now apply pretty_unbroken. Qed.

Lemma represented_stepped : forall p c, represented p c -> stepped 0 (lines p).
Proof. intros p c (t & [G _] & <- & _). now apply pretty_stepped. Qed.

Lemma represented_broken : forall p c, represented p c -> broken p.
Proof. intros p c (t & [G F] & <- & _). now apply pretty_broken. Qed.

Lemma represented_sparing : forall p c, represented p c -> sparing p.
Proof. intros p c (t & [G F] & <- & _). now apply pretty_sparing. Qed.

(** * On one line *)

Definition simple (c : byte) : bool :=
  negb (Ascii.eqb c LF || Ascii.eqb c " " || Ascii.eqb c "," || Ascii.eqb c "034" || opening c || closing c).

Definition simply (s : bytes) : Prop := Forall (fun c => simple c = true) s.

Lemma simple_facts : forall c, simple c = true -> c <> LF /\ c <> " " /\ c <> "," /\ c <> "034" /\ opening c = false /\ closing c = false.
Proof.
  intros c H. unfold simple in H. apply negb_true_iff in H. repeat (apply orb_false_iff in H; destruct H as [H ?]).
  repeat split; auto; now apply Ascii.eqb_neq.
Qed.

Lemma simply_check : forall s, forallb simple s = true -> simply s.
Proof. intros s H. apply Forall_forall. now rewrite forallb_forall in H. Qed.

Lemma simply_no_break : forall s, simply s -> no_break s.
Proof. intros s. apply Forall_impl. intros c H. now apply simple_facts. Qed.

Lemma simply_starts : forall s, simply s -> s <> [] -> starts_well s.
Proof. intros [|c s] H N; [congruence|]. inversion H; subst. apply simple_facts in H2. split; tauto. Qed.

Lemma simply_holds : forall s, simply s -> holds s.
Proof. intros s H. apply holds_all. revert H. apply Forall_impl. intros c H. apply simple_facts in H. tauto. Qed.

Lemma represented_simply : forall s, s <> [] -> simply s -> represented s s.
Proof.
  intros s N H. exists (Atom s). split; [|split; reflexivity]. split; [|now apply simply_holds]. split; [now apply simply_no_break|]. split; [now apply simply_starts|].
  destruct (exists_last N) as (r & c & E). exists r, c. rewrite E in H. apply Forall_app in H. destruct H as [_ H]. inversion H; subst.
  apply simple_facts in H2. tauto.
Qed.

Lemma simply_digits : forall s n, digits s n -> simply s.
Proof.
  induction 1 as [|s n c d _ IH Hc]; [constructor|]. apply Forall_app. split; [exact IH|]. constructor; [|constructor]. destruct Hc; reflexivity.
Qed.

Lemma simply_N : forall n, simply (show_N n).
Proof. intros n. eapply simply_digits. apply show_N_digits. Qed.

Lemma represented_N : forall n, represented (debug_N n) (debug_N n).
Proof. intros n. apply represented_simply; [apply show_N_some|apply simply_N]. Qed.

Lemma represented_nat : forall n, represented (debug_nat n) (debug_nat n).
Proof. intros n. apply represented_N. Qed.

Lemma simply_app : forall a b, simply a -> simply b -> simply (a ++ b).
Proof. intros a b Ha Hb. now apply Forall_app. Qed.

Lemma simply_decimal : forall d j, simply (write_decimal d j).
Proof.
  intros d j. pose proof (simply_N d) as H. assert (Z : forall k, simply (repeat "0" k)).
  { intros k. apply Forall_forall. intros c I. apply repeat_spec in I. now subst c. }
  unfold write_decimal. destruct (0 <=? j)%Z; [now apply simply_app|]. destruct (Nat.ltb _ _).
  - rewrite <- (firstn_skipn (length (show_N d) - Z.to_nat (- j)) (show_N d)) in H. apply Forall_app in H. destruct H.
    apply simply_app; [assumption|]. constructor; [reflexivity|assumption].
  - constructor; [reflexivity|]. constructor; [reflexivity|]. now apply simply_app.
Qed.

Lemma simply_Z : forall z, simply (show_Z z).
Proof. intros [|p|p]; [apply simply_N|apply simply_N|]. constructor; [reflexivity|apply simply_N]. Qed.

Lemma simply_exponent : forall d j, simply (write_exponent d j).
Proof.
  intros d j. unfold write_exponent. pose proof (simply_N d) as H. destruct (show_N d) as [|c r]; [constructor|]. inversion H; subst.
  constructor; [assumption|]. apply simply_app; [|constructor; [reflexivity|apply simply_Z]].
  destruct r; [constructor|]. constructor; [reflexivity|assumption].
Qed.

Lemma decimal_some : forall d j, write_decimal d j <> [].
Proof.
  intros d j. pose proof (show_N_some d) as N. unfold write_decimal. destruct (0 <=? j)%Z.
  - destruct (show_N d); [congruence|discriminate].
  - destruct (Nat.ltb _ _); [|discriminate]. now destruct (firstn _ _).
Qed.

Lemma represented_f64 : forall ch x, represented (debug_f64 ch x) (debug_f64 ch x).
Proof.
  intros ch x. apply represented_simply.
  - destruct x as [s|s| |s m e]; try (destruct s; discriminate); [discriminate|]. cbn [debug_f64]. destruct (decimal_of m e) as [d j].
    assert (N : (if exponent ch (S754_finite s m e) then write_exponent d j else write_pointed d j) <> []).
    { destruct (exponent ch _).
      - unfold write_exponent. pose proof (show_N_some d). destruct (show_N d); [congruence|discriminate].
      - unfold write_pointed. destruct (0 <=? j)%Z; [|apply decimal_some]. pose proof (decimal_some d j). now destruct (write_decimal d j). }
    destruct s; [discriminate|exact N].
  - destruct x as [s|s| |s m e]; try (destruct s; now apply simply_check); [now apply simply_check|]. cbn [debug_f64]. destruct (decimal_of m e) as [d j].
    apply simply_app; [destruct s; now apply simply_check|]. destruct (exponent ch _); [apply simply_exponent|].
    unfold write_pointed. destruct (0 <=? j)%Z; [apply simply_app; [|now apply simply_check]|]; apply simply_decimal.
Qed.

(** ** Strings *)

Lemma hex_no_break : forall n, no_break (show_hex n).
Proof.
  intros n. unfold show_hex. generalize (N.to_hex_uint n). induction u; cbn [hex_bytes]; constructor; auto; discriminate.
Qed.

Lemma unicode_no_break : forall n, no_break (unicode_escape n).
Proof.
  intros n. unfold unicode_escape. repeat (constructor; [discriminate|]). apply no_break_app; [apply hex_no_break|].
  constructor; [discriminate|constructor].
Qed.

Lemma escape_no_break : forall c, no_break (escape_byte c).
Proof.
  intros c. unfold escape_byte. repeat (match goal with |- context [if ?b then _ else _] => destruct b eqn:? end);
    try (repeat (constructor; [discriminate|]); constructor); try apply unicode_no_break;
    try (now apply Ascii.eqb_neq); constructor.
Qed.

Lemma character_no_break : forall ch g, no_break (escape_character ch g).
Proof.
  intros ch g. unfold escape_character. destruct (utf8_decode g) as [n|] eqn:E.
  - destruct (shown ch n); [|apply unicode_no_break]. apply decode_encode in E. destruct E as [U H].
    destruct U; try lia; repeat (constructor; [intros K; apply (f_equal N_of_ascii) in K; rewrite byte_value in K by lia; change (N_of_ascii LF) with 10%N in K; lia|]);
      constructor.
  - apply Forall_flat_map. apply Forall_forall. intros c _. apply escape_no_break.
Qed.

Lemma hex_inside : forall h n r, hex_digits h n -> whole true (h ++ r) = whole true r /\ kept true (h ++ r) = kept true r.
Proof.
  intros h n r H. revert r. induction H as [|h n c d _ IH Hc]; intros r; [split; reflexivity|]. rewrite <- app_assoc, !(proj1 (IH _)), !(proj2 (IH _)).
  destruct Hc as [c d Hc| | | | | |]; try (split; reflexivity). destruct Hc; split; reflexivity.
Qed.

(** A literal has no line breaks inside. *)
Lemma literal_inside : forall t s, literal_body t s -> forall r, whole true (t ++ "034" :: r) = whole false r /\
  (starts_closing r = false -> kept true (t ++ "034" :: r) = kept false r).
Proof.
  induction 1 as [|c t s Q B _ IH|e c t s _ _ IH|h n u t s _ Hh _ _ IH]; intros r.
  - split; [reflexivity|]. intros S. cbn [app kept]. change (Ascii.eqb "034" "092") with false. change (Ascii.eqb "034" "034") with true. cbv iota. now rewrite S.
  - cbn [app whole kept]. apply Ascii.eqb_neq in Q, B. rewrite Q, B. apply IH.
  - cbn [app whole kept]. apply IH.
  - cbn [app]. rewrite <- app_assoc.
    change (whole true (h ++ "}" :: t ++ "034" :: r) = whole false r /\ (starts_closing r = false -> kept true (h ++ "}" :: t ++ "034" :: r) = kept false r)).
    rewrite !(proj1 (hex_inside h n _ Hh)), !(proj2 (hex_inside h n _ Hh)). apply IH.
Qed.

Lemma str_holds : forall ch s, holds (debug_str ch s).
Proof.
  intros ch s. destruct (debug_str_literal ch s) as (t & -> & H). split; intros r; rewrite <- app_comm_cons, <- app_assoc; cbn [app].
  - change (whole true (t ++ "034" :: r) = whole false r). now apply literal_inside with s.
  - change (starts_closing r = false -> kept true (t ++ "034" :: r) = kept false r). now apply literal_inside with s.
Qed.

Lemma represented_str : forall ch s, represented (debug_str ch s) (debug_str ch s).
Proof.
  intros ch s. exists (Atom (debug_str ch s)). split; [|split; reflexivity]. split; [|apply str_holds]. unfold debug_str. split; [|split].
  - constructor; [discriminate|]. apply no_break_app; [|constructor; [discriminate|constructor]].
    apply Forall_flat_map. apply Forall_forall. intros g _. apply character_no_break.
  - repeat split; discriminate.
  - exists (quote :: flat_map (escape_character ch) (characters s)), quote. split; [reflexivity|]. split; [reflexivity|discriminate].
Qed.

(** * On several lines *)

Lemma represented_all : forall ps cs, Forall2 represented ps cs -> exists ts, (Forall good ts /\ Forall fine ts) /\ map pretty ts = ps /\ map plain ts = cs.
Proof.
  induction 1 as [|p c ps cs (t & [G F] & <- & <-) _ (ts & [Gs Fs] & <- & <-)]; [exists []; auto|].
  exists (t :: ts). auto.
Qed.

Definition item (t : tree) : bytes * tree := ([], t).

Lemma good_bare : forall ts, Forall good ts -> fold_right (fun it P => let '(p, t) := it in before_well p /\ good t /\ P) True (map item ts).
Proof.
  induction 1 as [|t ts G _ IH]; [exact I|]. cbn [map item fold_right]. split; [split; [constructor|now left]|]. auto.
Qed.

Lemma fine_bare : forall ts, Forall fine ts -> fold_right (fun it P => let '(p, t) := it in holds p /\ fine t /\ P) True (map item ts).
Proof. induction 1 as [|t ts F _ IH]; [exact I|]. cbn [map item fold_right]. split; [apply holds_nothing|]. auto. Qed.

Lemma item_plain : forall ts, map (fun it => let '(p, t) := it in p ++ plain t) (map item ts) = map plain ts.
Proof. intros ts. now rewrite map_map. Qed.
Lemma item_pretty : forall ts, map (fun it => let '(p, t) := it in p ++ pretty t) (map item ts) = map pretty ts.
Proof. intros ts. now rewrite map_map. Qed.

Lemma represented_tuple : forall name ps cs, lit name <> [] -> simply (lit name) -> ps <> [] -> Forall2 represented ps cs ->
  represented (pretty_tuple name ps) (debug_tuple name cs).
Proof.
  intros name ps cs N S E H. destruct (represented_all ps cs H) as (ts & [G F] & <- & <-).
  exists (Node (lit name ++ lit "(") (map item ts) ")"). split; [split|split].
  - cbn [good]. split; [apply no_break_app; [now apply simply_no_break|constructor; [discriminate|constructor]]|].
    split; [apply starts_more; now apply simply_starts|]. split; [reflexivity|]. split; [destruct ts; [now contradiction E|discriminate]|].
    split; [exists (lit name), "("; auto|]. now apply good_bare.
  - cbn [fine]. split; [exists (lit name), "("; auto using simply_holds|]. now apply fine_bare.
  - cbn [pretty]. rewrite item_pretty. unfold pretty_tuple. now rewrite <- app_assoc.
  - cbn [plain]. rewrite item_plain. unfold debug_tuple. now rewrite <- app_assoc.
Qed.

Lemma represented_vec : forall A (sp sc : A -> bytes) l, (forall a, represented (sp a) (sc a)) -> represented (pretty_vec sp l) (debug_vec sc l).
Proof.
  intros A sp sc l H. destruct l as [|a l].
  - exists (Atom (lit "[]")). split; [|split; reflexivity]. split; [|split; [intros [|c r]; reflexivity|intros r Sr; change (negb (starts_closing r) && kept false r = kept false r); now rewrite Sr]]. split; [repeat (constructor; [discriminate|]); constructor|].
    split; [repeat split; discriminate|]. exists ["["], "]". repeat split. discriminate.
  - assert (F : Forall2 represented (map sp (a :: l)) (map sc (a :: l))).
    { generalize (a :: l). intros k. induction k; constructor; auto. }
    destruct (represented_all _ _ F) as (ts & [G Fi] & E1 & E2).
    exists (Node (lit "[") (map item ts) "]"). split; [split|split].
    + cbn [good]. split; [constructor; [discriminate|constructor]|]. split; [repeat split; discriminate|]. split; [reflexivity|].
      split; [destruct ts; discriminate|]. split; [exists [], "["; auto|]. now apply good_bare.
    + cbn [fine]. split; [exists [], "["; repeat split|]. now apply fine_bare.
    + cbn [pretty]. rewrite item_pretty, E1. reflexivity.
    + cbn [plain]. rewrite item_plain, E2. reflexivity.
Qed.

Lemma struct_texts : forall (show : tree -> bytes) fs ts,
  map (fun it => let '(p, t) := it in p ++ show t) (combine (map (fun f => lit f ++ lit ": ") fs) ts) = map debug_field (combine fs (map show ts)).
Proof.
  intros show. induction fs as [|f fs IH]; intros [|t ts]; cbn [map combine]; auto. f_equal; [|apply IH].
  unfold debug_field. cbn [fst snd]. now rewrite <- app_assoc.
Qed.

Lemma represented_struct : forall name fs ps cs, lit name <> [] -> simply (lit name) -> fs <> [] ->
  Forall (fun f => lit f <> [] /\ simply (lit f)) fs -> length fs = length ps -> Forall2 represented ps cs ->
  represented (pretty_struct name (combine fs ps)) (debug_struct name (combine fs cs)).
Proof.
  intros name fs ps cs N S E F L H. destruct (represented_all ps cs H) as (ts & [G Fi] & <- & <-).
  pose (its := combine (map (fun f => lit f ++ lit ": ") fs) ts).
  exists (Node (lit name ++ lit " {") its "}"). split; [split|split].
  - cbn [good]. split; [apply no_break_app; [now apply simply_no_break|repeat (constructor; [discriminate|]); constructor]|].
    split; [apply starts_more; now apply simply_starts|]. split; [reflexivity|].
    rewrite map_length in L. split; [destruct fs; [congruence|]; destruct ts; discriminate|].
    split; [exists (lit name ++ [" "]), "{"; rewrite <- app_assoc; auto|].
    subst its. clear -F G. revert ts G. induction F as [|f fs [F1 F2] _ IH]; intros [|t ts] G; cbn [map combine fold_right]; auto.
    inversion G; subst. split; [|split; auto]. split; [|right; apply starts_more; now apply simply_starts].
    apply no_break_app; [now apply simply_no_break|repeat (constructor; [discriminate|]); constructor].
  - cbn [fine]. split.
    + exists (lit name ++ [" "]), "{". rewrite <- app_assoc. split; [reflexivity|]. split; [|reflexivity].
      apply holds_app; [reflexivity|now apply simply_holds|]. apply holds_all. repeat (constructor; [repeat split; discriminate|]). constructor.
    + subst its. clear -F Fi. revert ts Fi. induction F as [|f fs [F1 F2] _ IH]; intros [|t ts] Fi; cbn [map combine fold_right]; auto.
      inversion Fi; subst. split; [|split; auto]. apply holds_app; [reflexivity|now apply simply_holds|]. apply holds_all. repeat (constructor; [repeat split; discriminate|]). constructor.
  - cbn [pretty]. unfold pretty_struct. rewrite <- app_assoc. subst its. now rewrite struct_texts.
  - cbn [plain]. unfold debug_struct. change (gap "}") with [" "]. rewrite <- app_assoc. subst its. now rewrite struct_texts.
Qed.

Lemma represented_unit : forall name, lit name <> [] -> simply (lit name) -> represented (debug_unit name) (debug_unit name).
Proof. intros. now apply represented_simply. Qed.

Lemma represented_option : forall A (sp sc : A -> bytes) o, (forall a, represented (sp a) (sc a)) -> represented (pretty_option sp o) (debug_option sc o).
Proof.
  intros A sp sc [a|] H; [|apply represented_unit; [discriminate|now apply simply_check]].
  apply represented_tuple; [discriminate|now apply simply_check|discriminate|]. auto.
Qed.

(** Two fields. *)
Definition same_field (f g : string * bytes) : Prop :=
  fst f = fst g /\ lit (fst f) <> [] /\ forallb simple (lit (fst f)) = true /\ represented (snd f) (snd g).

Lemma represented_fields : forall name fs gs, lit name <> [] -> forallb simple (lit name) = true -> fs <> [] -> Forall2 same_field fs gs ->
  represented (pretty_struct name fs) (debug_struct name gs).
Proof.
  intros name fs gs N S E H.
  assert (C : forall l : list (string * bytes), combine (map fst l) (map snd l) = l).
  { induction l as [|[f p] l IH]; [reflexivity|]. cbn [map combine fst snd]. now rewrite IH. }
  assert (M : map fst fs = map fst gs) by (clear -H; induction H as [|f g fs gs (K & _) _ IH]; [reflexivity|]; cbn [map]; congruence).
  rewrite <- (C fs), <- (C gs), <- M. apply represented_struct; auto using simply_check.
  - now destruct fs.
  - apply Forall_map. clear -H. induction H as [|f g fs gs (_ & K1 & K2 & _) _ IH]; constructor; auto using simply_check.
  - now rewrite !map_length.
  - clear -H. induction H as [|f g fs gs (_ & _ & _ & K) _ IH]; constructor; auto.
Qed.

Ltac fields := apply represented_fields; [discriminate|reflexivity|discriminate|];
  repeat (apply Forall2_cons; [split; [reflexivity|split; [discriminate|split; [reflexivity|cbn [snd]]]]|]); [..|apply Forall2_nil].
Ltac parts := apply represented_tuple; [discriminate|now apply simply_check|discriminate|]; repeat (apply Forall2_cons; [|]); [..|apply Forall2_nil].

Section Types.
Context (ch : choices).

Hint Resolve represented_f64 represented_nat represented_N represented_str represented_vec represented_option : rep.

Lemma represented_vertex : forall v, represented (pretty_vertex ch v) (debug_vertex ch v).
Proof. intros v. fields; auto with rep. Qed.
Lemma represented_texture : forall v, represented (pretty_texture_vertex ch v) (debug_texture_vertex ch v).
Proof. intros v. fields; auto with rep. Qed.
Lemma represented_normal : forall v, represented (pretty_normal_vertex ch v) (debug_normal_vertex ch v).
Proof. intros v. fields; auto with rep. Qed.
Lemma represented_index : forall i, represented (pretty_vtn_index i) (debug_vtn_index i).
Proof. intros [v|v vt|v vn|v vt vn]; parts; auto with rep. Qed.
Hint Resolve represented_vertex represented_texture represented_normal represented_index : rep.
Lemma represented_element : forall e, represented (pretty_element e) (debug_element e).
Proof. intros [a|a b|a b c]; parts; auto with rep. Qed.
Lemma represented_group : forall g, represented (pretty_group ch g) (debug_group ch g).
Proof. intros g. parts; auto with rep. Qed.
Lemma represented_smoothing : forall g, represented (pretty_smoothing_group g) (debug_smoothing_group g).
Proof. intros g. parts; auto with rep. Qed.
Lemma represented_entry : forall s, represented (pretty_shape_entry s) (debug_shape_entry s).
Proof. intros s. fields; auto with rep. Qed.
Lemma represented_geometry : forall g, represented (pretty_geometry ch g) (debug_geometry ch g).
Proof. intros g. fields; auto with rep. Qed.
Lemma represented_triple : forall t, represented (pretty_vtn_triple ch t) (debug_vtn_triple ch t).
Proof. intros [v|v vt|v vn|v vt vn]; parts; auto with rep. Qed.
Hint Resolve represented_element represented_group represented_smoothing represented_entry represented_geometry : rep.
Lemma represented_object : forall o, represented (pretty_object ch o) (debug_object ch o).
Proof. intros o. fields; auto with rep. Qed.
Hint Resolve represented_object : rep.
Lemma represented_object_set : forall s, represented (pretty_object_set ch s) (debug_object_set ch s).
Proof. intros s. fields; auto with rep. Qed.

Lemma represented_kind : forall k, represented (debug_error_kind k) (debug_error_kind k).
Proof. intros k. apply represented_simply; [destruct k; discriminate|]. destruct k; now apply simply_check. Qed.
Lemma represented_mtl_kind : forall k, represented (debug_mtl_error_kind k) (debug_mtl_error_kind k).
Proof. intros k. apply represented_simply; [destruct k; discriminate|]. destruct k; now apply simply_check. Qed.
Lemma represented_error : forall K (kind : K -> bytes) e, (forall k, represented (kind k) (kind k)) ->
  represented (pretty_parse_error kind ch e) (debug_parse_error kind ch e).
Proof. intros K kind e H. fields; auto with rep. Qed.

Lemma represented_color : forall c, represented (pretty_color ch c) (debug_color ch c).
Proof. intros c. fields; auto with rep. Qed.
Lemma represented_illumination : forall i, represented (debug_illumination i) (debug_illumination i).
Proof. intros i. apply represented_simply; [destruct i; discriminate|]. destruct i; now apply simply_check. Qed.
Hint Resolve represented_color represented_illumination : rep.
Lemma represented_material : forall m, represented (pretty_material ch m) (debug_material ch m).
Proof. intros m. fields; auto with rep. Qed.
Hint Resolve represented_material : rep.
Lemma represented_material_set : forall s, represented (pretty_material_set ch s) (debug_material_set ch s).
Proof. intros s. fields; auto with rep. Qed.

(** * Results *)

Lemma represented_outcome : forall K A (sp sc : A -> bytes) (kind : K -> bytes) r, (forall a, represented (sp a) (sc a)) -> (forall k, represented (kind k) (kind k)) ->
  match pretty_outcome sp kind ch r, debug_outcome sc kind ch r with
  | Some p, Some c => represented p c
  | None, None => True
  | _, _ => False
  end.
Proof.
  intros K A sp sc kind [a|e|m|] H Hk; cbn [pretty_outcome debug_outcome]; auto.
  - parts. apply H.
  - parts. now apply represented_error.
Qed.

Lemma outcome_unbroken : forall K A (sp sc : A -> bytes) (kind : K -> bytes) r, (forall a, represented (sp a) (sc a)) -> (forall k, represented (kind k) (kind k)) ->
  option_map unbroken (pretty_outcome sp kind ch r) = debug_outcome sc kind ch r.
Proof.
  intros K A sp sc kind r H Hk. pose proof (represented_outcome K A sp sc kind r H Hk) as R.
  destruct (pretty_outcome sp kind ch r), (debug_outcome sc kind ch r); cbn [option_map]; try tauto. f_equal. now apply represented_unbroken.
Qed.

Lemma outcome_stepped : forall K A (sp sc : A -> bytes) (kind : K -> bytes) r p, (forall a, represented (sp a) (sc a)) -> (forall k, represented (kind k) (kind k)) ->
  pretty_outcome sp kind ch r = Some p -> stepped 0 (lines p).
Proof.
  intros K A sp sc kind r p H Hk E. pose proof (represented_outcome K A sp sc kind r H Hk) as R. rewrite E in R.
  destruct (debug_outcome sc kind ch r); [|destruct R]. eapply represented_stepped; eauto.
Qed.

Lemma outcome_broken : forall K A (sp sc : A -> bytes) (kind : K -> bytes) r p, (forall a, represented (sp a) (sc a)) -> (forall k, represented (kind k) (kind k)) ->
  pretty_outcome sp kind ch r = Some p -> broken p.
Proof.
  intros K A sp sc kind r p H Hk E. pose proof (represented_outcome K A sp sc kind r H Hk) as R. rewrite E in R.
  destruct (debug_outcome sc kind ch r); [|destruct R]. eapply represented_broken; eauto.
Qed.

Lemma outcome_sparing : forall K A (sp sc : A -> bytes) (kind : K -> bytes) r p, (forall a, represented (sp a) (sc a)) -> (forall k, represented (kind k) (kind k)) ->
  pretty_outcome sp kind ch r = Some p -> sparing p.
Proof.
  intros K A sp sc kind r p H Hk E. pose proof (represented_outcome K A sp sc kind r H Hk) as R. rewrite E in R.
  destruct (debug_outcome sc kind ch r); [|destruct R]. eapply represented_sparing; eauto.
Qed.
End Types.

Theorem obj_unbroken : forall ch r, option_map unbroken (pretty_obj_result ch r) = debug_obj_result ch r.
Proof. intros ch r. apply outcome_unbroken; [apply represented_object_set|apply represented_kind]. Qed.

Theorem mtl_unbroken : forall ch r, option_map unbroken (pretty_mtl_result ch r) = debug_mtl_result ch r.
Proof. intros ch r. apply outcome_unbroken; [apply represented_material_set|apply represented_mtl_kind]. Qed.

Theorem obj_stepped : forall ch r p, pretty_obj_result ch r = Some p -> stepped 0 (lines p).
Proof. intros ch r p. apply outcome_stepped with (sc := debug_object_set ch); [apply represented_object_set|apply represented_kind]. Qed.

Theorem mtl_stepped : forall ch r p, pretty_mtl_result ch r = Some p -> stepped 0 (lines p).
Proof. intros ch r p. apply outcome_stepped with (sc := debug_material_set ch); [apply represented_material_set|apply represented_mtl_kind]. Qed.

Theorem obj_broken : forall ch r p, pretty_obj_result ch r = Some p -> broken p.
Proof. intros ch r p. apply outcome_broken with (sc := debug_object_set ch); [apply represented_object_set|apply represented_kind]. Qed.

Theorem mtl_broken : forall ch r p, pretty_mtl_result ch r = Some p -> broken p.
Proof. intros ch r p. apply outcome_broken with (sc := debug_material_set ch); [apply represented_material_set|apply represented_mtl_kind]. Qed.

Theorem obj_sparing : forall ch r p, pretty_obj_result ch r = Some p -> sparing p.
Proof. intros ch r p. apply outcome_sparing with (sc := debug_object_set ch); [apply represented_object_set|apply represented_kind]. Qed.

Theorem mtl_sparing : forall ch r p, pretty_mtl_result ch r = Some p -> sparing p.
Proof. intros ch r p. apply outcome_sparing with (sc := debug_material_set ch); [apply represented_material_set|apply represented_mtl_kind]. Qed.

Theorem obj_text : forall ch r t, debug_obj_result ch r = Some t ->
  forall p, pretty_obj_result ch r = Some p <-> unbroken p = t /\ stepped 0 (lines p) /\ broken p /\ sparing p.
Proof.
  intros ch r t D p. pose proof (obj_unbroken ch r) as U. rewrite D in U. split.
  - intros E. rewrite E in U. injection U as U. repeat split; [exact U|eapply obj_stepped; eauto|eapply obj_broken; eauto ..|eapply obj_sparing; eauto|eapply obj_sparing; eauto].
  - intros (E & S & B & K). destruct (pretty_obj_result ch r) as [p'|] eqn:E'; [|discriminate U]. injection U as U. f_equal.
    apply text_only; auto; [eapply obj_stepped; eauto|eapply obj_broken; eauto|eapply obj_sparing; eauto|congruence].
Qed.

Theorem mtl_text : forall ch r t, debug_mtl_result ch r = Some t ->
  forall p, pretty_mtl_result ch r = Some p <-> unbroken p = t /\ stepped 0 (lines p) /\ broken p /\ sparing p.
Proof.
  intros ch r t D p. pose proof (mtl_unbroken ch r) as U. rewrite D in U. split.
  - intros E. rewrite E in U. injection U as U. repeat split; [exact U|eapply mtl_stepped; eauto|eapply mtl_broken; eauto ..|eapply mtl_sparing; eauto|eapply mtl_sparing; eauto].
  - intros (E & S & B & K). destruct (pretty_mtl_result ch r) as [p'|] eqn:E'; [|discriminate U]. injection U as U. f_equal.
    apply text_only; auto; [eapply mtl_stepped; eauto|eapply mtl_broken; eauto|eapply mtl_sparing; eauto|congruence].
Qed.

Theorem obj_pretty_same : forall ch dbg dbg' input input' p, fits input -> fits input' ->
  pretty_obj_result ch (ObjModel.parse dbg input) = Some p -> pretty_obj_result ch (ObjModel.parse dbg' input') = Some p ->
  ObjModel.parse dbg input = ObjModel.parse dbg' input'.
Proof.
  intros ch dbg dbg' input input' p F F' E E'. apply (obj_debug_same ch dbg dbg' input input' (unbroken p) F F').
  - now rewrite <- obj_unbroken, E.
  - now rewrite <- obj_unbroken, E'.
Qed.

Theorem mtl_pretty_same : forall ch input input' p,
  pretty_mtl_result ch (MtlModel.parse input) = Some p -> pretty_mtl_result ch (MtlModel.parse input') = Some p ->
  MtlModel.parse input = MtlModel.parse input'.
Proof.
  intros ch input input' p E E'. apply (mtl_debug_same ch input input' (unbroken p)).
  - now rewrite <- mtl_unbroken, E.
  - now rewrite <- mtl_unbroken, E'.
Qed.
