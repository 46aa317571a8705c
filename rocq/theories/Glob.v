(** fnmatch.fnmatch(name, pattern) of python 2.7 on posix, as used by
    txstatsd/server/router.py:232-235 and twisted/plugins/sli_plugin.py:52.
    The library translates the pattern to a regular expression; the model
    follows Lib/fnmatch.py [translate] and the character set syntax of sre. *)
From Verif Require Import Base.

Inductive gtok :=
| TStar                                       (* * *)
| TAny                                        (* ? *)
| TLit (c : ascii)
| TClass (neg : bool) (ranges : list (ascii * ascii)).

(** text up to the first ']' and what follows it *)
Fixpoint to_close (s : str) : option (str * str) :=
  match s with
  | [] => None
  | c :: s' => if eqc c "]" then Some ([], s')
               else match to_close s' with
                    | None => None
                    | Some (a, b) => Some (c :: a, b)
                    end
  end.

(** fnmatch.translate, branch [c == '[']: the set text [pat[i:j]] and the rest.
    A ']' directly after '[' or '[!' does not close the set. *)
Definition set_text (s : str) : option (str * str) :=
  let '(pre, s1) := match s with
                    | c :: s' => if eqc c "!" then ([c], s') else ([], s)
                    | [] => ([], s)
                    end in
  let '(pre2, s2) := match s1 with
                     | c :: s' => if eqc c "]" then ([c], s') else ([], s1)
                     | [] => ([], s1)
                     end in
  match to_close s2 with
  | None => None
  | Some (a, b) => Some (pre ++ pre2 ++ a, b)
  end.

(** sre character set: single characters and ranges a-b; a final '-' is literal;
    b < a is rejected ("bad character range") *)
Fixpoint set_ranges (s : str) : res (list (ascii * ascii)) :=
  match s with
  | [] => Ok []
  | a :: s1 =>
      match s1 with
      | d :: s2 =>
          if eqc d "-" then
            match s2 with
            | [] => Ok [(a, a); (d, d)]
            | b :: s3 =>
                if code b <? code a then Exn ReError
                else match set_ranges s3 with
                     | Exn e => Exn e
                     | Ok l => Ok ((a, b) :: l)
                     end
            end
          else match set_ranges s1 with
               | Exn e => Exn e
               | Ok l => Ok ((a, a) :: l)
               end
      | [] => Ok [(a, a)]
      end
  end.

Definition class_of (text : str) : res gtok :=
  match text with
  | c :: t => if eqc c "!"
              then match set_ranges t with Ok l => Ok (TClass true l) | Exn e => Exn e end
              else match set_ranges text with Ok l => Ok (TClass false l) | Exn e => Exn e end
  | [] => Exn ReError
  end.

(** fnmatch.translate.  The recursion is on fuel because a set is skipped in one
    go; [length pat] is always enough (see GlobFacts.v). *)
Fixpoint parse_glob_fuel (f : nat) (p : str) : res (list gtok) :=
  match p with
  | [] => Ok []
  | c :: p' =>
      match f with
      | O => Exn OtherError
      | S f' =>
          let continue (t : gtok) (rest : str) :=
            match parse_glob_fuel f' rest with
            | Ok l => Ok (t :: l)
            | Exn e => Exn e
            end in
          if eqc c "*" then continue TStar p'
          else if eqc c "?" then continue TAny p'
          else if eqc c "[" then
            match set_text p' with
            | None => continue (TLit c) p'
            | Some (text, rest) =>
                match class_of text with
                | Exn e => Exn e
                | Ok t => continue t rest
                end
            end
          else continue (TLit c) p'
      end
  end.
Definition parse_glob (p : str) : res (list gtok) := parse_glob_fuel (length p) p.

Definition in_range (c : ascii) (r : ascii * ascii) : bool :=
  (code (fst r) <=? code c) && (code c <=? code (snd r)).
Definition class_match (neg : bool) (ranges : list (ascii * ascii)) (c : ascii) : bool :=
  xorb neg (existsb (in_range c) ranges).

Fixpoint gmatch (toks : list gtok) (s : str) : bool :=
  match toks with
  | [] => match s with [] => true | _ => false end
  | TStar :: t =>
      (fix star (s : str) : bool :=
         gmatch t s || match s with [] => false | _ :: s' => star s' end) s
  | TAny :: t => match s with [] => false | _ :: s' => gmatch t s' end
  | TLit c :: t => match s with [] => false | x :: s' => eqc c x && gmatch t s' end
  | TClass n r :: t => match s with [] => false | x :: s' => class_match n r x && gmatch t s' end
  end.

Definition fnmatch (name pat : str) : res bool :=
  match parse_glob pat with
  | Exn e => Exn e
  | Ok toks => Ok (gmatch toks name)
  end.
