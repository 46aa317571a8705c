(** Common vocabulary: byte strings, python exceptions, the string methods of
    python 2 that the code uses.  Nothing here is specific to txstatsd. *)
From Coq Require Export ZArith Ascii String List Lia ZifyBool ZifyNat.
From stdpp Require Export base list gmap sorting.
Export ListNotations.
Open Scope Z_scope.
Open Scope list_scope.
Notation length := List.length.

(** python 2 [str]: a sequence of bytes. *)
Notation str := (list ascii).
Definition B (s : string) : str := list_ascii_of_string s.
Arguments B _%string_scope : simpl never.

(** Exceptions the modelled code can raise, as values. *)
Inductive exn : Type :=
| ValueError | TypeError | ZeroDivisionError | OverflowError | IndexError
| KeyError | UnboundLocalError | AttributeError | RuntimeError
| AssertionError | StopIteration | UnicodeDecodeError | NoSectionError
| AlreadyCalledError | SocketError | ReError | UsageError | OtherError.

Global Instance exn_eq_dec : EqDecision exn.
Proof. solve_decision. Defined.

Inductive res (A : Type) : Type := Ok (a : A) | Exn (e : exn).
Arguments Ok {A} a.
Arguments Exn {A} e.

(** A python method: it may change the state and then return or raise; changes
    made before a raise are kept. *)
Definition M (S A : Type) : Type := S -> S * res A.
Definition ret {S A} (a : A) : M S A := fun s => (s, Ok a).
Definition raise {S A} (e : exn) : M S A := fun s => (s, Exn e).
Definition bnd {S A C} (m : M S A) (f : A -> M S C) : M S C :=
  fun s => match m s with
           | (s', Ok a) => f a s'
           | (s', Exn e) => (s', Exn e)
           end.
Definition get_ {S} : M S S := fun s => (s, Ok s).
Definition mod_ {S} (f : S -> S) : M S unit := fun s => (f s, Ok tt).
Definition lift_ {S A} (r : res A) : M S A := fun s => (s, r).

Notation "'let!' x := m 'in' k" := (bnd m (fun x => k))
  (at level 200, x pattern, m at level 100, k at level 200).
Notation "m ;! k" := (bnd m (fun _ => k)) (at level 100, k at level 200, right associativity).

(** ** Characters *)

Definition code (c : ascii) : Z := Z.of_N (N_of_ascii c).

(** python 2 [str.isspace] / regex [\s] on bytes: space, \t \n \v \f \r. *)
Definition is_space (c : ascii) : bool :=
  (code c =? 32) || ((9 <=? code c) && (code c <=? 13)).
Definition is_digit (c : ascii) : bool := (48 <=? code c) && (code c <=? 57).
Definition is_upper (c : ascii) : bool := (65 <=? code c) && (code c <=? 90).
Definition is_lower (c : ascii) : bool := (97 <=? code c) && (code c <=? 122).
Definition to_lower (c : ascii) : ascii :=
  if is_upper c then ascii_of_N (Z.to_N (code c + 32)) else c.
Definition eqc (a b : ascii) : bool := Ascii.eqb a b.

Definition c_colon : ascii := ":".
Definition c_pipe : ascii := "|".
Definition c_space : ascii := " ".
Definition c_slash : ascii := "/".
Definition c_under : ascii := "_".
Definition c_minus : ascii := "-".
Definition c_dot : ascii := ".".
Definition c_at : ascii := "@".
Definition c_nl : ascii := ascii_of_N 10.
Definition c_cr : ascii := ascii_of_N 13.
Definition CRLF : str := [c_cr; c_nl].

(** ** python string methods *)

Fixpoint str_eqb (a b : str) : bool :=
  match a, b with
  | [], [] => true
  | x :: a', y :: b' => eqc x y && str_eqb a' b'
  | _, _ => false
  end.

(** [c in s] for a one character [c]. *)
Definition has (c : ascii) (s : str) : bool := existsb (eqc c) s.

(** longest prefix satisfying [p], and the rest *)
Fixpoint span (p : ascii -> bool) (s : str) : str * str :=
  match s with
  | [] => ([], [])
  | c :: s' => if p c then let '(a, b) := span p s' in (c :: a, b) else ([], s)
  end.

Fixpoint lstrip (s : str) : str :=
  match s with
  | [] => []
  | c :: s' => if is_space c then lstrip s' else s
  end.
Definition rstrip (s : str) : str := rev (lstrip (rev s)).
(** [s.strip()] *)
Definition strip (s : str) : str := rstrip (lstrip s).

(** [s.split(c)] for a one character separator: never empty. *)
Fixpoint split_on (c : ascii) (s : str) : list str :=
  match s with
  | [] => [[]]
  | x :: s' =>
      if eqc c x then [] :: split_on c s'
      else match split_on c s' with
           | [] => [[x]]
           | w :: ws => (x :: w) :: ws
           end
  end.

(** [s.split(c, 1)] when [c in s]. *)
Fixpoint split1 (c : ascii) (s : str) : option (str * str) :=
  match s with
  | [] => None
  | x :: s' =>
      if eqc c x then Some ([], s')
      else match split1 c s' with
           | None => None
           | Some (a, b) => Some (x :: a, b)
           end
  end.

(** [sep.join(l)] *)
Fixpoint join (sep : str) (l : list str) : str :=
  match l with
  | [] => []
  | [w] => w
  | w :: ws => w ++ sep ++ join sep ws
  end.

Fixpoint starts_with (p s : str) : bool :=
  match p, s with
  | [], _ => true
  | x :: p', y :: s' => eqc x y && starts_with p' s'
  | _ :: _, [] => false
  end.

(** [s.split(sep)] for a two character separator [ab] (used for ["=>"]):
    leftmost, non-overlapping occurrences. *)
Fixpoint split_on2 (a b : ascii) (s : str) : list str :=
  match s with
  | [] => [[]]
  | x :: s' =>
      match s' with
      | y :: s'' =>
          if eqc a x && eqc b y then [] :: split_on2 a b s''
          else match split_on2 a b s' with
               | [] => [[x]]
               | w :: ws => (x :: w) :: ws
               end
      | [] => [[x]]
      end
  end.

(** [s.replace(a, b)] for single characters. *)
Definition replace_char (a b : ascii) (s : str) : str :=
  map (fun c => if eqc a c then b else c) s.

Definition nonempty (s : str) : bool := match s with [] => false | _ => true end.

(** ["%d" % n], [str(n)] for integers *)
Definition digit_char (d : N) : ascii := ascii_of_N (48 + d).
Fixpoint digits_fuel (f : nat) (n : N) : str :=
  match f with
  | O => []
  | S f' => if (n <? 10)%N then [digit_char n]
            else digits_fuel f' (n / 10) ++ [digit_char (n mod 10)]
  end.
Definition show_N (n : N) : str := digits_fuel (S (N.size_nat n)) n.
Definition show_Z (z : Z) : str :=
  match z with
  | Zneg p => c_minus :: show_N (Npos p)
  | _ => show_N (Z.to_N z)
  end.

(** value of a string of digits *)
Definition digit_val (c : ascii) : Z := code c - 48.
Definition digits_val (s : str) : Z := fold_left (fun acc c => acc * 10 + digit_val c) s 0.

Definition parse_sign (s : str) : bool * str :=
  match s with
  | c :: s' => if eqc c "-" then (true, s') else if eqc c "+" then (false, s') else (false, s)
  | [] => (false, s)
  end.

(** [int(s)] for a string: optional surrounding whitespace, sign, digits. *)
Definition parse_int (s : str) : option Z :=
  let '(neg, d) := parse_sign (strip s) in
  if nonempty d && forallb is_digit d
  then Some (if neg then - digits_val d else digits_val d)
  else None.

(** Literals accepted by python 2.7 [float(s)]: [FDec neg m e] is +-m*10^e. *)
Inductive flit : Type := FDec (neg : bool) (m : Z) (e : Z) | FInf (neg : bool) | FNan.

Definition parse_mantissa (s : str) : option (Z * Z * str) :=
  (* digits [ '.' digits ], at least one digit; result m, e, rest *)
  let '(ip, r1) := span is_digit s in
  match r1 with
  | c :: r2 =>
      if eqc c "." then
        let '(fp, r3) := span is_digit r2 in
        if nonempty (ip ++ fp)
        then Some (digits_val (ip ++ fp), - Z.of_nat (List.length fp), r3) else None
      else if nonempty ip then Some (digits_val ip, 0, r1) else None
  | [] => if nonempty ip then Some (digits_val ip, 0, r1) else None
  end.

Definition parse_exponent (s : str) : option Z :=
  match s with
  | [] => Some 0
  | c :: s' =>
      if eqc (to_lower c) "e" then
        let '(neg, d) := parse_sign s' in
        if nonempty d && forallb is_digit d
        then Some (if neg then - digits_val d else digits_val d) else None
      else None
  end.

(** [float(s)], [None] standing for ValueError. *)
Definition parse_float (s : str) : option flit :=
  let '(neg, d) := parse_sign (strip s) in
  let low := map to_lower d in
  if str_eqb low (B "inf") || str_eqb low (B "infinity") then Some (FInf neg)
  else if str_eqb low (B "nan") then Some FNan
  else match parse_mantissa d with
       | Some (m, e, r) =>
           match parse_exponent r with
           | Some x => Some (FDec neg m (e + x))
           | None => None
           end
       | None => None
       end.
