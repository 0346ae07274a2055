(** Where the names of a result come from: C39, C43. *)
From Verif Require Import ObjModel ObjView NameSpec LexerProofs ObjTop NameProofs ExampleText Demo.
From Verif Require MtlModel MtlSpec.
Local Open Scope list_scope.

(** * C39 *)

(** Libraries are named on [mtllib] lines, objects by [o], groups on [g] lines,
    materials by [usemtl]. *)
Theorem C39_written : forall dbg input set, fits input -> parse dbg input = Ok set -> forall ts, tokenizes input ts ->
  (forall t, In t (material_libraries set) -> on_line (lit "mtllib") t ts) /\
  (forall i ob, nth_error (objects set) i = Some ob -> (i = 0 /\ name ob = []) \/ sub [lit "o"; name ob; nl] ts) /\
  (forall ob t, In ob (objects set) -> In t (group_set ob) -> t = lit "default" \/ on_line (lit "g") t ts) /\
  (forall ob g m, In ob (objects set) -> In g (geometry_set ob) -> material_name g = Some m -> sub [lit "usemtl"; m] ts).
Proof.
  exact (fun dbg input set Hf Hok ts Ht => conj (written_libraries dbg input set Hf Hok ts Ht)
    (conj (written_object dbg input set Hf Hok ts Ht) (conj (written_group dbg input set Hf Hok ts Ht)
      (written_material dbg input set Hf Hok ts Ht)))).
Qed.
Print Assumptions C39_written.

Theorem C39_mtl_written : forall input set ts, MtlModel.parse input = Ok set -> tokenizes input ts ->
  forall m, In m (MtlTypes.materials set) ->
  sub [lit "newmtl"; MtlTypes.name m] ts /\
  forall nm, In (Some nm) (MtlSpec.map_names m) -> exists k w, MtlSpec.map_word k w /\ sub [w; nm] ts.
Proof. exact mtl_written. Qed.
Print Assumptions C39_mtl_written.

(** * C43 *)

(** A name is a newline only where the statement has no name on its line. *)
Theorem C43_only_missing : forall dbg input set, fits input -> parse dbg input = Ok set -> forall ts, tokenizes input ts ->
  (~ sub [lit "o"; nl; nl] ts -> forall ob, In ob (objects set) -> name ob <> nl) /\
  (~ sub [lit "usemtl"; nl] ts -> forall ob g, In ob (objects set) -> In g (geometry_set ob) -> material_name g <> Some nl).
Proof.
  intros dbg input set Hf Hok ts Ht. split.
  - intros N ob I E. apply In_nth_error in I. destruct I as [i I].
    destruct (written_object dbg input set Hf Hok ts Ht i ob I) as [[_ K]|K]; rewrite E in K; [discriminate K|contradiction].
  - intros N ob g I Ig E. apply N. exact (written_material dbg input set Hf Hok ts Ht ob g nl I Ig E).
Qed.
Print Assumptions C43_only_missing.

Theorem C43_mtl_only_missing : forall input set ts, MtlModel.parse input = Ok set -> tokenizes input ts ->
  forall m, In m (MtlTypes.materials set) ->
  (~ sub [lit "newmtl"; nl] ts -> MtlTypes.name m <> nl) /\
  ((forall k w, MtlSpec.map_word k w -> ~ sub [w; nl] ts) -> ~ In (Some nl) (MtlSpec.map_names m)).
Proof.
  intros input set ts E Ht m I. destruct (mtl_written input set ts E Ht m I) as [H1 H2]. split.
  - intros N K. rewrite K in H1. contradiction.
  - intros N K. destruct (H2 nl K) as (k & w & W & S). exact (N k w W S).
Qed.
Print Assumptions C43_mtl_only_missing.

Theorem C43_object_names_refuted :
  ~ (forall input set ob, fits input -> parse false input = Ok set -> In ob (objects set) -> name ob <> nl).
Proof.
  intros H. pose (input := text "o||v 0 0 0|p 1|").
  assert (P : exists set ob, parse false input = Ok set /\ objects set = [ob] /\ name ob = nl)
    by (eexists; eexists; split; [vm_compute; reflexivity|split; reflexivity]).
  destruct P as (set & ob & P & Po & Pn). apply (H input set ob); auto.
  - vm_compute. discriminate.
  - rewrite Po. now left.
Qed.
Print Assumptions C43_object_names_refuted.

Lemma sub_check : forall l ts, sub l ts <-> existsb (fun n => if list_eq_dec (list_eq_dec ascii_dec) (firstn (length l) (skipn n ts)) l then true else false) (seq 0 (S (length ts))) = true.
Proof.
  intros l ts. rewrite existsb_exists. split.
  - intros (a & b & ->). exists (length a). split; [apply in_seq; rewrite app_length; lia|].
    rewrite skipn_app, skipn_all, Nat.sub_diag. cbn [app skipn]. rewrite firstn_app, firstn_all, Nat.sub_diag. cbn [firstn]. rewrite app_nil_r.
    destruct (list_eq_dec (list_eq_dec ascii_dec) l l); [reflexivity|contradiction].
  - intros (n & _ & E). destruct (list_eq_dec (list_eq_dec ascii_dec) _ _) as [K|]; [|discriminate]. rewrite <- K.
    exists (firstn n ts), (skipn (length l) (skipn n ts)). rewrite firstn_skipn. now rewrite firstn_skipn.
Qed.

Definition named : bytes := text "mtllib a.mtl b.mtl|o x|v 0 0 0|g one two|usemtl red|p 1|".

Example C39_written_example : exists set ob, parse false named = Ok set /\ objects set = [ob] /\
  material_libraries set = [lit "a.mtl"; lit "b.mtl"] /\ name ob = lit "x" /\ group_set ob = [lit "one"; lit "two"] /\
  map material_name (geometry_set ob) = [Some (lit "red")].
Proof. eexists. eexists. split; [vm_compute; reflexivity|]. repeat split; reflexivity. Qed.

Example C43_only_missing_example : exists ts, tokenizes named ts /\ ~ sub [lit "o"; nl; nl] ts /\ ~ sub [lit "usemtl"; nl] ts.
Proof.
  exists (lex named). split; [now apply tokenizes_iff|]. split; intros H; apply sub_check in H; vm_compute in H; discriminate H.
Qed.

Example C43_mtl_only_missing_example : let input := text "newmtl a|Kd 1 0 0|map_Kd a.png|" in
  exists set m, MtlModel.parse input = Ok set /\ MtlTypes.materials set = [m] /\ MtlTypes.name m = lit "a" /\
    In (Some (lit "a.png")) (MtlSpec.map_names m) /\ ~ sub [lit "newmtl"; nl] (lex input).
Proof.
  cbv zeta. eexists. eexists. split; [vm_compute; reflexivity|]. split; [reflexivity|]. split; [reflexivity|].
  split; [cbn; tauto|]. intros H; apply sub_check in H; vm_compute in H; discriminate H.
Qed.
