(** Names stand in the text after the word of their statement. *)
From Verif Require Import ObjModel ObjView NameSpec LexerProofs ObjTop ObjMeaning ObjFacts ObjMore ObjProps.
From Verif Require MtlModel MtlSpec MtlFacts.
From Coq Require Import Lia.
Local Open Scope list_scope.

Lemma sub_app_r : forall l u ts, sub l ts -> sub l (u ++ ts).
Proof. intros l u ts (a & b & ->). exists (u ++ a), b. now rewrite <- app_assoc. Qed.
Lemma sub_cons : forall l t ts, sub l ts -> sub l (t :: ts).
Proof. intros l t ts H. now apply (sub_app_r l [t]). Qed.
Lemma sub_front : forall l b, sub l (l ++ b).
Proof. intros l b. now exists [], b. Qed.
Lemma sub_app_l : forall l ts u, sub l ts -> sub l (ts ++ u).
Proof. intros l ts u (a & b & ->). exists a, (b ++ u). now rewrite <- !app_assoc. Qed.

Lemma on_line_app : forall k t u ts, on_line k t ts -> on_line k t (u ++ ts).
Proof. intros k t u ts (ns & N & S). exists ns. split; [exact N|now apply sub_app_r]. Qed.

Lemma line_on : forall k ts names rest t, reads_line ts names rest -> In t names -> on_line k t (k :: ts) /\ t <> nl.
Proof.
  intros k ts names rest t H I. destruct (in_split _ _ I) as (l1 & l2 & E).
  assert (N : ~ In nl names) by (destruct H; assumption).
  split; [|intros ->; contradiction]. exists l1. split; [intros K; apply N; rewrite E; apply in_app_iff; now left|].
  destruct H as [names Hn|names rest Hn]; subst names.
  - exists [], l2. cbn. now rewrite <- app_assoc.
  - exists [], (l2 ++ nl :: rest). cbn. now rewrite <- !app_assoc.
Qed.

(** What a statement says about names. *)
Definition placed (s : statement) (ts : list bytes) : Prop :=
  match s with
  | SUse m => sub [lit "usemtl"; m] ts
  | SGroup names => forall t, In t names -> on_line (lit "g") t ts
  | _ => True
  end.

Lemma placed_app : forall s u ts, placed s ts -> placed s (u ++ ts).
Proof.
  intros [] u ts H; cbn in *; auto; [intros t I; now apply on_line_app, H|now apply sub_app_r].
Qed.

Lemma statement_placed : forall base now ts s rest, reads_statement base now ts s rest -> placed s ts.
Proof.
  intros base now ts s rest H. destruct H; cbn; auto.
  - intros t I. eapply line_on; eauto.
  - exists [], rest. reflexivity.
Qed.

Lemma body_suffix : forall base now ts ss rest, reads_body base now ts ss rest ->
  (exists u, ts = u ++ rest) /\ forall s, In s ss -> placed s ts.
Proof.
  intros base now ts ss rest H. induction H as [now ts H|now ts ss rest H [(u & ->) IH]|now ts s mid ss rest Hs H [(u & ->) IH]].
  - split; [now exists []|intros s []].
  - split; [now exists (nl :: u)|]. intros s I. apply (placed_app s [nl]). auto.
  - destruct (statement_suffix _ _ _ _ _ Hs) as (v & E). split; [exists (v ++ u); now rewrite <- app_assoc|].
    intros s' [<-|I]; [eapply statement_placed; eauto|]. rewrite E. apply placed_app. auto.
Qed.

Definition object_placed (o : bytes * list statement) (ts : list bytes) : Prop :=
  sub [lit "o"; fst o; nl] ts /\ forall s, In s (snd o) -> placed s ts.

Lemma object_placed_app : forall o u ts, object_placed o ts -> object_placed o (u ++ ts).
Proof. intros o u ts [H1 H2]. split; [now apply sub_app_r|intros s I; now apply placed_app, H2]. Qed.

Lemma objects_placed : forall now ts os rest, reads_objects now ts os rest -> forall o, In o os -> object_placed o ts.
Proof.
  intros now ts os rest H. induction H as [|now name ts ss mid os rest Hb H IH]; intros o I; [destruct I|].
  destruct (body_suffix _ _ _ _ _ Hb) as ((u & E) & P).
  destruct I as [<-|I].
  - split; [exists [], ts; reflexivity|]. intros s Is. apply (placed_app s [lit "o"; name; nl]). auto.
  - rewrite E. apply (object_placed_app o (lit "o" :: name :: nl :: u)). auto.
Qed.

Lemma libraries_placed : forall ts libs rest, reads_libraries ts libs rest ->
  (exists u, ts = u ++ rest) /\ forall t, In t libs -> on_line (lit "mtllib") t ts.
Proof.
  intros ts libs rest H. induction H as [ts libs rest H [(u & ->) IH]|ts names mid libs rest Hl H [(u & ->) IH]|ts H].
  - split; [now exists (nl :: u)|]. intros t I. apply (on_line_app _ _ [nl]). auto.
  - destruct (line_suffix _ _ _ Hl) as (v & E). split; [exists (lit "mtllib" :: v ++ u); cbn; now rewrite E, <- app_assoc|].
    intros t I. apply in_app_iff in I. destruct I as [I|I]; [eapply line_on; eauto|].
    rewrite E. apply (on_line_app _ _ (lit "mtllib" :: v)). auto.
  - split; [now exists []|intros t []].
Qed.

Lemma file_placed : forall ts f, reads_file ts f [] ->
  (forall t, In t (file_libraries f) -> on_line (lit "mtllib") t ts) /\
  forall i n ss, nth_error (file_objects f) i = Some (n, ss) ->
    ((i = 0 /\ n = []) \/ sub [lit "o"; n; nl] ts) /\ forall s, In s ss -> placed s ts.
Proof.
  intros ts f H. inversion H as [ts' libs mid os rest Hl Ho|ts' libs mid ss mid' os rest Hl Hm Hb Ho]; subst.
  - destruct (libraries_placed _ _ _ Hl) as ((u & ->) & P). split; [exact P|]. cbn [file_objects].
    intros i n ss E. apply nth_error_In in E. destruct (objects_placed _ _ _ _ Ho _ E) as [K1 K2].
    split; [right; now apply sub_app_r|intros s I; now apply placed_app, K2].
  - destruct (libraries_placed _ _ _ Hl) as ((u & ->) & P). split; [exact P|]. cbn [file_objects].
    destruct (body_suffix _ _ _ _ _ Hb) as ((v & ->) & Q). intros i n ss' E. destruct i as [|i].
    + cbn in E. injection E as <- <-. split; [left; auto|]. intros s I. now apply placed_app, Q.
    + cbn in E. apply nth_error_In in E. destruct (objects_placed _ _ _ _ Ho _ E) as [K1 K2].
      split; [right; now apply sub_app_r, sub_app_r|intros s I; now apply placed_app, placed_app, K2].
Qed.

Section Parsed.
Context (dbg : bool) (input : bytes) (set : object_set) (Hf : fits input) (Hok : parse dbg input = Ok set).
Context (ts : list bytes) (Ht : tokenizes input ts).

Lemma said_file : exists f, reads_file ts f [] /\ says input f.
Proof.
  destruct (parsed_said _ _ _ Hf Hok) as (f & (ts' & Ht' & Hr) & _). exists f.
  assert (ts' = ts) by (apply tokenizes_iff in Ht, Ht'; congruence). subst ts'.
  split; [exact Hr|]. exists ts. split; [exact Ht|exact Hr].
Qed.

Lemma written_libraries : forall t, In t (material_libraries set) -> on_line (lit "mtllib") t ts.
Proof.
  destruct said_file as (f & Hr & Hs). intros t I. rewrite (parsed_libraries _ _ _ Hf Hok f Hs) in I.
  now apply (proj1 (file_placed _ _ Hr)).
Qed.

Lemma nth_said : forall i ob, nth_error (objects set) i = Some ob -> exists f n ss, reads_file ts f [] /\
  nth_error (file_objects f) i = Some (n, ss) /\ ob = object_of (base_of f i) n ss.
Proof.
  destruct said_file as (f & Hr & Hs). intros i ob Hob. exists f.
  destruct (nth_error (file_objects f) i) as [[n ss]|] eqn:Ei.
  - exists n, ss. repeat split; auto. eapply (nth_is _ _ _ Hf Hok); eauto.
  - exfalso. apply nth_error_None in Ei. assert (Hlt : i < length (objects set)) by (apply nth_error_Some; congruence).
    rewrite (parsed_count _ _ _ Hf Hok f Hs) in Hlt. lia.
Qed.

Lemma written_object : forall i ob, nth_error (objects set) i = Some ob ->
  (i = 0 /\ name ob = []) \/ sub [lit "o"; name ob; nl] ts.
Proof.
  intros i ob Hob. destruct (nth_said i ob Hob) as (f & n & ss & Hr & Hi & ->). cbn [name object_of].
  destruct (proj2 (file_placed _ _ Hr) _ _ _ Hi) as [K _]. exact K.
Qed.

Lemma written_group : forall ob t, In ob (objects set) -> In t (group_set ob) -> t = lit "default" \/ on_line (lit "g") t ts.
Proof.
  intros ob t Hob I. apply In_nth_error in Hob. destruct Hob as [i Hob].
  destruct (nth_said i ob Hob) as (f & n & ss & Hr & Hi & ->). cbn [group_set object_of] in I.
  destruct (proj2 (file_placed _ _ Hr) _ _ _ Hi) as [_ K].
  apply declared_in in I. destruct I as [->|I]; [now left|]. right. apply in_flat_map in I. destruct I as (s & Is & In').
  destruct s; cbn in In'; try contradiction. exact (K _ Is t In').
Qed.

Lemma written_material : forall ob g m, In ob (objects set) -> In g (geometry_set ob) -> material_name g = Some m ->
  sub [lit "usemtl"; m] ts.
Proof.
  intros ob g m Hob I E. apply In_nth_error in Hob. destruct Hob as [i Hob].
  destruct (nth_said i ob Hob) as (f & n & ss & Hr & Hi & ->).
  destruct (proj2 (file_placed _ _ Hr) _ _ _ Hi) as [_ K].
  cbn [geometry_set object_of] in I. apply drop_empty_incl in I.
  destruct (segments_material _ _ _ _ _ _ I) as [Q|(x & Q & Hx)]; rewrite Q in E; [discriminate|]. injection E as ->.
  exact (K _ Hx).
Qed.
End Parsed.

(** * MTL *)
Section Mtl.
Import MtlModel MtlSpec MtlFacts.

Lemma settings_placed : forall ss ts, says_settings ss ts -> forall f nm, In (SetMap f nm) ss ->
  exists w, map_word f w /\ sub [w; nm] ts.
Proof.
  intros ss ts H. induction H as [|ss ts H IH|s line ss ts Hs H IH]; intros f nm I.
  - destruct I.
  - destruct (IH f nm I) as (w & W & S). exists w. split; [exact W|now apply sub_cons].
  - destruct I as [->|I].
    + inversion Hs; subst. exists w. split; [assumption|]. apply sub_app_l. exists [], []. reflexivity.
    + destruct (IH f nm I) as (w & W & S). exists w. split; [exact W|now apply sub_app_r].
Qed.

Lemma materials_placed : forall f ts, says_materials f ts -> forall n ss, In (n, ss) f ->
  sub [lit "newmtl"; n] ts /\ forall k nm, In (SetMap k nm) ss -> exists w, map_word k w /\ sub [w; nm] ts.
Proof.
  intros f ts H. induction H as [|name ss ts f ts' Hs H IH]; intros n ss' I; [destruct I|].
  destruct I as [E|I].
  - injection E as -> ->. split; [exists [], (ts ++ ts'); reflexivity|]. intros k nm Hk.
    destruct (settings_placed _ _ Hs k nm Hk) as (w & W & S). exists w. split; [exact W|].
    apply sub_cons, sub_cons, sub_app_l, S.
  - destruct (IH _ _ I) as [H1 H2]. split; [apply sub_cons, sub_cons, sub_app_r, H1|].
    intros k nm Hk. destruct (H2 k nm Hk) as (w & W & S). exists w. split; [exact W|]. apply sub_cons, sub_cons, sub_app_r, S.
Qed.

Lemma mtl_written : forall input set ts, parse input = Ok set -> tokenizes input ts -> forall m, In m (MtlTypes.materials set) ->
  sub [lit "newmtl"; MtlTypes.name m] ts /\
  forall nm, In (Some nm) (map_names m) -> exists k w, map_word k w /\ sub [w; nm] ts.
Proof.
  intros input set ts E Ht m Hm. apply parsed_says in E. destruct E as (f & (ts0 & Ht0 & (n & ts' & E & H)) & ->).
  assert (ts0 = ts) by (apply tokenizes_iff in Ht, Ht0; congruence). subst ts0. clear Ht Ht0. subst ts.
  cbn in Hm. apply in_map_iff in Hm. destruct Hm as ([nm ss] & <- & Hin).
  destruct (materials_placed _ _ H _ _ Hin) as [H1 H2].
  split; [apply sub_app_r; exact H1|]. intros nm' Hi.
  assert (Hx : exists k, last_of (given_map k) ss = Some nm').
  { cbn in Hi. repeat destruct Hi as [Hi|Hi]; try (eexists; exact Hi). destruct Hi. }
  destruct Hx as (k & Hk). apply last_of_in in Hk. destruct Hk as (s & Hs & Hg). apply given_map_in in Hg. subst s.
  destruct (H2 _ _ Hs) as (w & W & S). exists k, w. split; [exact W|now apply sub_app_r].
Qed.
End Mtl.
