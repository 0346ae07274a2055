(** The names of materials in OBJ and MTL texts: C77. *)
From Verif Require Import ObjModel ObjView ObjImageSpec UseSpec LexerProofs ObjTop ExampleText UseProofs.
From Verif Require MtlTypes MtlModel.
Local Open Scope list_scope.

(** For every OBJ text there is an MTL text that defines the materials it uses,
    in the same order. *)
Theorem C77_library : forall dbg input set, fits input -> valid_utf8 input -> parse dbg input = Ok set ->
  exists library ms, valid_utf8 library /\ MtlModel.parse library = Ok (MtlTypes.mkMaterialSet ms) /\
    map MtlTypes.name ms = materials_used set.
Proof. exact library_for. Qed.
Print Assumptions C77_library.

(** For every MTL text, and any libraries to be named, there is an OBJ text that
    uses all its materials, in the same order, each for a point of its own. *)
Theorem C77_use : forall dbg library ms libraries, valid_utf8 library ->
  MtlModel.parse library = Ok (MtlTypes.mkMaterialSet ms) ->
  Forall (fun n => (is_token n /\ valid_utf8 n) /\ n <> nl) libraries ->
  let set := set_using libraries (map MtlTypes.name ms) in
  fits (write_set set) -> valid_utf8 (write_set set) /\ parse dbg (write_set set) = Ok set.
Proof. exact user_of. Qed.
Print Assumptions C77_use.

Theorem C77_used : forall libraries ns, materials_used (set_using libraries ns) = ns.
Proof. exact used_set_using. Qed.
Print Assumptions C77_used.

(** A name need not single out a material of a library. *)
Theorem C77_distinct_refuted : ~ (forall library ms, MtlModel.parse library = Ok (MtlTypes.mkMaterialSet ms) ->
  NoDup (map MtlTypes.name ms)).
Proof.
  intros H. destruct (MtlModel.parse (text "newmtl a|newmtl a|")) as [[ms]| | |] eqn:E; [|vm_compute in E; discriminate E..].
  specialize (H _ _ E). vm_compute in E. injection E as <-. cbn in H.
  inversion H as [|? ? K _]. apply K. now left.
Qed.
Print Assumptions C77_distinct_refuted.

Definition two_materials : bytes := text "newmtl red|Kd 1 0 0|newmtl a/b:c|".

Example C77_use_example : exists a b,
  MtlModel.parse two_materials = Ok (MtlTypes.mkMaterialSet [a; b]) /\ map MtlTypes.name [a; b] = [lit "red"; lit "a/b:c"] /\
  write_set (set_using [lit "x.mtl"] [lit "red"; lit "a/b:c"]) =
    text "mtllib x.mtl|v 0 0 0 1|g default|s 0|p 1|usemtl red|p 1|usemtl a/b:c|p 1|" /\
  parse true (write_set (set_using [lit "x.mtl"] [lit "red"; lit "a/b:c"])) = Ok (set_using [lit "x.mtl"] [lit "red"; lit "a/b:c"]) /\
  fits (write_set (set_using [lit "x.mtl"] [lit "red"; lit "a/b:c"])).
Proof.
  eexists _, _. split; [vm_compute; reflexivity|]. split; [reflexivity|]. split; [vm_compute; reflexivity|].
  split; [vm_compute; reflexivity|]. vm_compute. discriminate.
Qed.

(** A text that uses two materials, one of them twice. *)
Example C77_library_example : exists set,
  parse true (text "v 0 0 0|usemtl m|p 1|usemtl n|p 1|o x|v 0 0 0|usemtl m|p 2|") = Ok set /\ materials_used set = [lit "m"; lit "n"; lit "m"].
Proof. eexists. split; [vm_compute; reflexivity|reflexivity]. Qed.
