(** Model of the rule configuration of the SLI plugin,
    twisted/plugins/sli_plugin.py:40-41 and 56-94. *)
From Verif Require Import Base Num Glob Metrics.
Open Scope Z_scope.

Section sliconfig.
Context {NN : Num}.

(** regex [\w] without flags, on bytes (sli_plugin.py:65) *)
Definition is_word (c : ascii) : bool := is_digit c || is_upper c || is_lower c || eqc c "_".
(** [\w\.\*\?\_\-] (sli_plugin.py:65) *)
Definition is_head (c : ascii) : bool :=
  is_word c || eqc c "." || eqc c "*" || eqc c "?" || eqc c "_" || eqc c "-".

(** remove a given prefix *)
Fixpoint drop_prefix (p s : str) : option str :=
  match p, s with
  | [], _ => Some s
  | x :: p', y :: s' => if eqc x y then drop_prefix p' s' else None
  | _ :: _, [] => None
  end.

(** sli_plugin.py:65-74, [mo.match(rule).groups()].  No backtracking can help:
    a space ends the first two groups, the last group accepts anything (a rule
    has no newline). *)
Definition match_rule (rule : str) : option (str * str * str * str) :=
  let '(head, r1) := span is_head rule in
  if negb (nonempty head) then None else
  match drop_prefix (B " => ") r1 with
  | None => None
  | Some r2 =>
      let '(label, r3) := span is_word r2 in
      if negb (nonempty label) then None else
      match drop_prefix (B " IF ") r3 with
      | None => None
      | Some r4 =>
          let '(cname, rest) := span is_word r4 in
          if negb (nonempty cname) then None else Some (head, label, cname, rest)
      end
  end.

(** What configure stores: a condition object, or - for the condition name
    "metric", which getattr resolves to the factory's own build_metric - a
    reporter, which is not callable. *)
Inductive centry := CCond (c : cond) | CObj.

Definition pyfloat (s : str) : res num :=
  match float_of s with Some x => Ok x | None => Exn ValueError end.
Definition floats2 (a b : str) (f : num -> num -> cond) : res centry :=
  match pyfloat a with
  | Exn e => Exn e
  | Ok x => match pyfloat b with Exn e => Exn e | Ok y => Ok (CCond (f x y)) end
  end.
(** sli_plugin.py:79-84, 87-94: method lookup and call with the split
    parameters.  "metric" reaches build_metric (sli_plugin.py:43-54), which takes
    two or three arguments; it returns a reporter because heads contain no
    bracket, so no pattern of the configuration is rejected. *)
Definition build_cond (cname : str) (args : list str) : res centry :=
  if str_eqb cname (B "above") then
    match args with
    | [v] => match pyfloat v with Exn e => Exn e | Ok x => Ok (CCond (Above x n0)) end
    | [v; s] => floats2 v s Above
    | _ => Exn TypeError
    end
  else if str_eqb cname (B "below") then
    match args with
    | [v] => match pyfloat v with Exn e => Exn e | Ok x => Ok (CCond (Below x n0)) end
    | [v; s] => floats2 v s Below
    | _ => Exn TypeError
    end
  else if str_eqb cname (B "between") then
    match args with
    | [lo; hi] => floats2 lo hi Between
    | _ => Exn TypeError
    end
  else if str_eqb cname (B "metric") then
    match args with
    | [_; _] | [_; _; _] => Ok CObj
    | _ => Exn TypeError
    end
  else Exn TypeError.

(** sli_plugin.py:41 *)
Notation sconfig := (gmap str (gmap str centry)).

(** sli_plugin.py:69-85, one iteration *)
Definition configure_rule (cfg : sconfig) (rule : str) : sconfig * res unit :=
  match match_rule rule with
  | None => (cfg, Exn TypeError)
  | Some (head, label, cname, cparams) =>
      let old := match cfg !! head with Some m => m | None => ∅ end in
      let cfg1 := <[head := old]> cfg in
      match build_cond cname (split_on c_space (tail cparams)) with
      | Exn e => (cfg1, Exn e)
      | Ok c => (<[head := <[label := c]> old]> cfg1, Ok tt)
      end
  end.
(** sli_plugin.py:67-85 *)
Fixpoint configure_rules (cfg : sconfig) (rules : list str) : sconfig * res unit :=
  match rules with
  | [] => (cfg, Ok tt)
  | r :: rs =>
      match configure_rule cfg r with
      | (cfg1, Ok _) => configure_rules cfg1 rs
      | (cfg1, Exn e) => (cfg1, Exn e)
      end
  end.
(** sli_plugin.py:56-67; [rules] is section.get("rules", None) *)
Definition sli_configure (cfg : sconfig) (rules : option str) : sconfig * res unit :=
  match rules with
  | None => (cfg, Ok tt)
  | Some text => configure_rules cfg (split_on c_nl (strip text))
  end.

(** The factory of Metrics.v built on this configuration, in some dictionary
    order [ks]; only when every entry is a condition. *)
Definition only_cond (e : centry) : option cond := match e with CCond c => Some c | CObj => None end.
Definition sli_factory (cfg : sconfig) (ks : list str) : factory :=
  FSli (flat_map (fun k => match cfg !! k with Some m => [(k, omap only_cond m)] | None => [] end) ks).

End sliconfig.
Notation sconfig := (gmap str (gmap str centry)).
