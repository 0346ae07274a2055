(** Written MTL materials are read back: C33.

    MtlWriteSpec.v says how materials are written. *)
From Coq Require Import Floats.SpecFloat.
From Verif Require Import MtlModel MtlWriteSpec ExampleText MtlWrite.
Local Open Scope list_scope.

(** Any layout, any order of the statements, any spelling of the numbers. *)
Theorem C33_any_layout : forall input ms tss n, Forall2 writes_material ms tss ->
  tokenizes input (repeat nl n ++ concat tss) -> parse input = Ok (mkMaterialSet ms).
Proof. exact written_materials. Qed.
Print Assumptions C33_any_layout.

(** The text that a simple writer produces. *)
Theorem C33_writer : forall ms, Forall material_f64 ms -> Forall (names_are word) ms ->
  parse (write_materials ms) = Ok (mkMaterialSet ms).
Proof. exact write_materials_read. Qed.
Print Assumptions C33_writer.

(** Exactly which materials can be read: all those with [f64] numbers and tokens
    for names. *)
Theorem C33_readable_iff : forall ms, (exists input, valid_utf8 input /\ parse input = Ok (mkMaterialSet ms)) <->
  Forall material_f64 ms /\ Forall (names_are (fun n => is_token n /\ valid_utf8 n)) ms.
Proof. exact readable_str_iff. Qed.
Print Assumptions C33_readable_iff.

Theorem C33_readable_bytes_iff : forall ms, (exists input, parse input = Ok (mkMaterialSet ms)) <->
  Forall material_f64 ms /\ Forall (names_are is_token) ms.
Proof. exact readable_iff. Qed.
Print Assumptions C33_readable_bytes_iff.

Definition half : f64 := S754_finite false 4503599627370496 (-53).

Definition glass : material :=
  mkMaterial (lit "glass") (mkColor half S754_nan (S754_zero true)) color_zero color_zero (mkColor f64_one f64_one f64_one)
    (S754_infinity true) half (Some half) Ambient
    None (Some (lit "glass.png")) None None None None (Some (lit "d.png")) None None.

Example C33_hypotheses : Forall material_f64 [glass; glass] /\ Forall (names_are word) [glass; glass].
Proof.
  assert (Hw : forall w, w <> [] -> forallb WordProofs.plain w = true -> word w) by exact WordProofs.plain_words.
  split; repeat (apply Forall_cons; [|]); try apply Forall_nil.
  1, 2: split; [intros []; repeat split; reflexivity|]; split; [reflexivity|]; split; [reflexivity|]; intros x E; injection E as <-; reflexivity.
  all: split; [apply Hw; [intros K; discriminate K|reflexivity]|]; intros [] n E; try discriminate E; injection E as <-; (apply Hw; [intros K; discriminate K|reflexivity]).
Qed.

Example C33_example : write_materials [glass] =
  text "newmtl glass|Ka 0.5 NaN -0|Kd 0 0 0|Ks 0 0 0|Ke 1 1 1|Ns -inf|d 0.5|Ni 0.5|illum 0|map_Kd glass.png|disp d.png|" /\
  parse (write_materials [glass; glass]) = Ok (mkMaterialSet [glass; glass]).
Proof. split; vm_compute; reflexivity. Qed.
