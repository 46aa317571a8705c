(** What a configuration file says.  Independent of the model. *)
From Verif Require Import Base LineSpec AssemblySpec.

(** ** lines *)
Definition in_ws (c : ascii) : Prop := In c ws_chars.
Definition blank (l : str) : Prop := all_in ws_chars l.
(** [REM] in any mixture of cases at the start of the line, alone or before a space *)
Definition rem_line (l : str) : Prop := exists a b c rest, l = a :: b :: c :: rest /\
  In a (B "rR") /\ In b (B "eE") /\ In c (B "mM") /\ (rest = [] \/ exists s rest', rest = s :: rest' /\ in_ws s).
Definition ignored (l : str) : Prop := blank l \/ (exists c r, l = c :: r /\ In c (B "#;")) \/ rem_line l.
(** [name] in brackets, at the start of the line; what follows does not matter *)
Definition header (l n : str) : Prop := exists rest, l = B "[" ++ n ++ B "]" ++ rest /\ n <> [] /\ ~ In "]"%char n.
(** lower-casing *)
Definition down (c d : ascii) : Prop := (~ In c uppers /\ d = c) \/ exists i, uppers !! i = Some c /\ lowers !! i = Some d.
(** [u] is what is left of a value [t], which does not start with a space, when a comment is
    taken off: it starts at the first semicolon, if that follows a space.  If the value starts
    with the semicolon, its last byte decides. *)
Definition ends_in_ws (s : str) : Prop := exists s' c, s = s' ++ [c] /\ in_ws c.
Inductive uncommented (t : str) : str -> Prop :=
| uc_none : ~ In ";"%char t -> uncommented t t
| uc_cut a b : t = a ++ B ";" ++ b -> ~ In ";"%char a -> (a <> [] -> ends_in_ws a) -> (a = [] -> ends_in_ws t) -> uncommented t a
| uc_kept a b : t = a ++ B ";" ++ b -> ~ In ";"%char a -> (a <> [] -> ~ ends_in_ws a) -> (a = [] -> ~ ends_in_ws t) -> uncommented t t.
Definition value_text (r v : str) : Prop := exists sp t u w, r = sp ++ t /\ blank sp /\ (forall c t', t = c :: t' -> ~ in_ws c) /\
  uncommented t u /\ stripped u w /\ (w = B """""" -> v = []) /\ (w <> B """""" -> v = w).
(** [option : value] or [option = value], from the start of the line *)
Definition setting (l o v : str) : Prop := exists name sp sep r, l = name ++ sp ++ [sep] ++ r /\ In sep (B ":=") /\
  (forall c, In c name -> ~ In c (B ":=")) /\ name <> [] /\ no_outer_ws name /\ blank sp /\ Forall2 down name o /\ value_text r v.
(** a further line of a value *)
Definition further (l v : str) : Prop := (exists c l', l = c :: l' /\ in_ws c) /\ stripped l v.

(** ** files *)
(** the lines that are not ignored *)
Inductive significant : list str -> list str -> Prop :=
| sg_nil : significant [] []
| sg_skip l ls ss : ignored l -> significant ls ss -> significant (l :: ls) ss
| sg_keep l ls ss : ~ ignored l -> significant ls ss -> significant (l :: ls) (l :: ss).
(** settings, each with the further lines of its value *)
Inductive settings : list str -> list (str * list str) -> Prop :=
| st_nil : settings [] []
| st_cons l o v cs vs ls es : setting l o v -> (forall n, ~ header l n) -> Forall2 further cs vs -> settings ls es ->
    settings (l :: cs ++ ls) ((o, v :: vs) :: es).
(** sections: a header and settings *)
Inductive blocks : list str -> list (str * list (str * list str)) -> Prop :=
| bl_nil : blocks [] []
| bl_cons l n ls es ss bs : header l n -> settings ls es -> blocks ss bs -> blocks (l :: ls ++ ss) ((n, es) :: bs).
(** the text [t] says [bs] *)
Definition lines_in (t : str) (ls : list str) : Prop := ls <> [] /\ t = join (B "
") ls /\ Forall (fun l => ~ In c_nl l) ls.
Definition says (t : str) (bs : list (str * list (str * list str))) : Prop :=
  exists ls ss, lines_in t ls /\ significant ls ss /\ blocks ss bs.

(** ** what the settings amount to *)
(** first occurrences *)
Fixpoint firsts (l : list str) : list str :=
  match l with [] => [] | x :: l' => x :: filter (fun y => y <> x) (firsts l') end.
Definition settings_of (n : str) (bs : list (str * list (str * list str))) : list (str * list str) :=
  concat (map snd (filter (fun b => fst b = n) bs)).
(** a later setting replaces an earlier one; the lines of a value are joined by newlines *)
Definition final (o : str) (es : list (str * list str)) : str :=
  match last (filter (fun e => fst e = o) es) with Some e => join (B "
") (snd e) | None => [] end.
Definition contents (es : list (str * list str)) : list (str * str) :=
  map (fun o => (o, final o es)) (filter (fun o => o <> B "__name__") (firsts (map fst es))).
(** the sections; those of DEFAULT count as earlier settings of every section *)
Definition meaning (bs : list (str * list (str * list str))) : list (str * list (str * str)) :=
  map (fun n => (n, contents (settings_of (B "DEFAULT") bs ++ settings_of n bs)))
    (filter (fun n => n <> B "DEFAULT") (firsts (map fst bs))).

(** ** texts that say nothing *)
Definition heads (l : str) : Prop := ~ ignored l /\ exists n, header l n.
Definition sets (l : str) : Prop := ~ ignored l /\ (forall n, ~ header l n) /\ exists o v, setting l o v.
(** after [pre], the last header or setting is a setting *)
Definition inside (pre : list str) : Prop := exists a l b, pre = a ++ l :: b /\ sets l /\ Forall (fun x => ~ heads x /\ ~ sets x) b.
(** the first line that is not ignored, line [i], is no header *)
Definition headless (ls : list str) (i : nat) : Prop := exists pre l post, ls = pre ++ l :: post /\ i = S (length pre) /\
  Forall ignored pre /\ ~ ignored l /\ ~ heads l.
(** line [i] is no header, no setting and no further line of a setting *)
Definition stray (ls : list str) (i : nat) : Prop := exists pre l post, ls = pre ++ l :: post /\ i = S (length pre) /\
  ~ ignored l /\ ~ heads l /\ ~ sets l /\ ~ ((exists c l', l = c :: l' /\ in_ws c) /\ inside pre).

(** ** writing a file *)
Definition no_ws (s : str) : Prop := forall c, In c s -> ~ in_ws c.
(** names and values that can be written as they are *)
Definition plain_section (n : str) : Prop := n <> [] /\ ~ In "]"%char n /\ ~ In c_nl n /\ n <> B "DEFAULT".
Definition plain_option (o : str) : Prop := o <> [] /\ no_ws o /\ (forall c, In c o -> ~ In c (B ":=") /\ ~ In c uppers) /\
  o <> B "__name__" /\ forall c r, o = c :: r -> ~ In c (B "#;[").
Definition plain_first (v : str) : Prop := no_outer_ws v /\ ~ In c_nl v /\ ~ In ";"%char v /\ v <> B """""".
Definition plain_further (v : str) : Prop := v <> [] /\ no_outer_ws v /\ ~ In c_nl v.
Definition plain_setting (e : str * list str) : Prop := plain_option (fst e) /\
  exists v vs, snd e = v :: vs /\ plain_first v /\ Forall plain_further vs.
Definition plain_file (bs : list (str * list (str * list str))) : Prop := NoDup (map fst bs) /\
  Forall (fun b => plain_section (fst b) /\ NoDup (map fst (snd b)) /\ Forall plain_setting (snd b)) bs.
Definition setting_lines (e : str * list str) : list str :=
  match snd e with [] => [] | v :: vs => (fst e ++ B ": " ++ v) :: map (fun w => B " " ++ w) vs end.
Definition file_text (bs : list (str * list (str * list str))) : str :=
  join (B "
") (concat (map (fun b => (B "[" ++ fst b ++ B "]") :: concat (map setting_lines (snd b))) bs) ++ [[]]).
(** the sections and their options *)
Definition plainly (bs : list (str * list (str * list str))) : list (str * list (str * str)) :=
  map (fun b => (fst b, map (fun e => (fst e, join (B "
") (snd e))) (snd b))) bs.
