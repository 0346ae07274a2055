(** Notation for the example texts: [|] stands for a newline. *)
From Verif Require Export Bytes.
Local Open Scope list_scope.

Definition text (s : string) : bytes :=
  map (fun c => if Ascii.eqb c "|"%char then LF else c) (lit s).
