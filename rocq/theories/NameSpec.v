(** Where names stand in a text.  Independent of the model. *)
From Verif Require Export TokenSpec.
Local Open Scope list_scope.

(** The tokens [l] stand one after the other in [ts]. *)
Definition sub (l ts : list bytes) : Prop := exists a b, ts = a ++ l ++ b.

(** [t] stands after [k], on the same line. *)
Definition on_line (k t : bytes) (ts : list bytes) : Prop := exists ns, ~ In nl ns /\ sub (k :: ns ++ [t]) ts.
