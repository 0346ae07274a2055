(** Texts of several lines with brackets.  Independent of the model. *)
From Verif Require Export Bytes.
Local Open Scope char_scope.
Local Open Scope list_scope.

(** The lines of a text; the last one need not be ended. *)
Fixpoint lines (s : bytes) : list bytes :=
  match s with
  | [] => [[]]
  | c :: r =>
      if Ascii.eqb c LF then [] :: lines r
      else match lines r with
           | l :: ls => (c :: l) :: ls
           | [] => [[c]]
           end
  end.

Definition opening (c : byte) : bool := Ascii.eqb c "{" || Ascii.eqb c "(" || Ascii.eqb c "[".
Definition closing (c : byte) : bool := Ascii.eqb c "}" || Ascii.eqb c ")" || Ascii.eqb c "]".

Definition starts_closing (l : bytes) : bool := match l with c :: _ => closing c | [] => false end.
Definition ends_opening (l : bytes) : bool := match rev l with c :: _ => opening c | [] => false end.

(** [stepped d ls]: the lines [ls], inside [d] brackets, are indented by four
    blanks for every bracket that a line before has opened at its end and none
    has closed at its start. *)
Fixpoint stepped (d : nat) (ls : list bytes) : Prop :=
  match ls with
  | [] => d = 0
  | l :: r => exists e text, l = repeat " " (4 * e) ++ text /\ (exists c t, text = c :: t /\ c <> " ") /\
      d = (if starts_closing text then S e else e) /\ stepped (if ends_opening text then S e else e) r
  end.

(** The text without its line breaks: the blanks that indent a line go, a comma
    before a closing bracket goes, other commas and braces get a blank. *)
Fixpoint unindent (l : bytes) : bytes :=
  match l with
  | c :: r => if Ascii.eqb c " " then unindent r else l
  | [] => []
  end.

Definition without_comma (l : bytes) : bytes :=
  match rev l with
  | c :: r => if Ascii.eqb c "," then rev r else l
  | [] => []
  end.

Definition joint (l next : bytes) : bytes :=
  match next with
  | c :: _ =>
      if closing c then without_comma l ++ (if Ascii.eqb c "}" then [" "] else [])
      else l ++ match rev l with d :: _ => if Ascii.eqb d "," || Ascii.eqb d "{" then [" "] else [] | [] => [] end
  | [] => l
  end.

Fixpoint joined (ls : list bytes) : bytes :=
  match ls with
  | [] => []
  | l :: r => match r with [] => l | next :: _ => joint l next ++ joined r end
  end.

Definition unbroken (s : bytes) : bytes := joined (map unindent (lines s)).

(** No line break is missing: outside string literals an opening bracket ends its
    line, unless a closing one follows it, and so does a comma. *)
Fixpoint whole (quoted : bool) (l : bytes) : bool :=
  match l with
  | [] => true
  | c :: r =>
      if quoted then
        if Ascii.eqb c "092" then match r with [] => true | _ :: r' => whole true r' end
        else whole (negb (Ascii.eqb c "034")) r
      else if Ascii.eqb c "034" then whole true r
      else match r with
           | [] => true
           | d :: _ => (if opening c then closing d else negb (Ascii.eqb c ",")) && whole false r
           end
  end.

(** Nor is a comma behind the last item. *)
Definition ends_item (l : bytes) : bool := match rev l with c :: _ => opening c || Ascii.eqb c "," | [] => false end.

Definition broken (s : bytes) : Prop :=
  Forall (fun l => whole false l = true) (lines s) /\ Forall (fun l => ends_item l = true) (removelast (lines s)).

(** Nor is there a line break too many: a literal ends on the line it starts on, a
    closing bracket starts its line or stands directly behind the opening one. *)
Fixpoint kept (quoted : bool) (l : bytes) : bool :=
  match l with
  | [] => negb quoted
  | c :: r =>
      if quoted then
        if Ascii.eqb c "092" then match r with [] => false | _ :: r' => kept true r' end
        else if Ascii.eqb c "034" then negb (starts_closing r) && kept false r
        else kept true r
      else if Ascii.eqb c "034" then kept true r
      else (opening c || negb (starts_closing r)) && kept false r
  end.

(** A comma stands behind its item, and a bracket is not closed on the line after
    the one it was opened on. *)
Definition starts_item (l : bytes) : bool := match l with c :: _ => negb (Ascii.eqb c ",") | [] => false end.

Fixpoint filled (ls : list bytes) : Prop :=
  match ls with
  | [] => True
  | l :: r => match r with n :: _ => ends_opening l = true -> starts_closing n = false | [] => True end /\ filled r
  end.

Definition sparing (s : bytes) : Prop :=
  Forall (fun l => kept false l = true /\ starts_item l = true) (map unindent (lines s)) /\ filled (map unindent (lines s)).
