(** Numbers.  The model of the code is generic in [Num], the operations python
    floats offer to it.  [XQ] is the exact instance: rationals extended with
    infinities and NaN, following the IEEE rules for the special values.
    Simplification (stated in DESIGN.md): [XQ] does not round, overflow or
    distinguish -0.0 from 0.0. *)
From Verif Require Import Base.
From Coq Require Import QArith Qcanon Qround.
Open Scope Z_scope.

Class Num := MkNum {
  num : Type;
  nadd : num -> num -> num;
  nsub : num -> num -> num;
  nmul : num -> num -> num;
  ndiv : num -> num -> num;          (* quotient; callers test for a zero divisor, see [pydiv] *)
  nltb : num -> num -> bool;
  nleb : num -> num -> bool;
  neqb : num -> num -> bool;
  nofZ : Z -> num;                   (* int to float *)
  nlit : flit -> num;                (* value of a float literal *)
  ntrunc : num -> res Z;             (* int(x), math.trunc(x) *)
  nfloor : num -> num;               (* math.floor(x) *)
  nround : Z -> num -> num;          (* round(x, n), python 2: half away from zero *)
  nsqrt : num -> res num;            (* math.sqrt(x) *)
}.

Section ops.
  Context `{NN : Num}.
  Definition n0 : num := nofZ 0.
  Definition n1 : num := nofZ 1.
  (** python [a / b] with at least one float operand *)
  Definition pydiv (a b : num) : res num :=
    if neqb b n0 then Exn ZeroDivisionError else Ok (ndiv a b).
  (** [sum(l)]: starts from the integer 0 *)
  Definition nsum (l : list num) : num := fold_left nadd l n0.
  (** builtin [max(a, b)] / [min(a, b)]: the first wins ties and NaN comparisons *)
  Definition pymax (a b : num) : num := if nltb a b then b else a.
  Definition pymin (a b : num) : num := if nltb b a then b else a.
  (** [float(s)] *)
  Definition float_of (s : str) : option num := nlit <$> parse_float s.
  (** [list.sort()] on numbers: insertion sort by [<], stable.  Equal to any
      comparison sort when [<] is a strict weak order, i.e. without NaN. *)
  Fixpoint ninsert (x : num) (l : list num) : list num :=
    match l with
    | [] => [x]
    | y :: l' => if nltb x y then x :: l else y :: ninsert x l'
    end.
  Definition nsort (l : list num) : list num := fold_left (fun acc x => ninsert x acc) l [].
End ops.

(** The one numerical fact some theorems about every [Num] need; it holds for
    the exact instance and for binary64. *)
Class NumLaw (NN : Num) : Prop := { one_not_zero : neqb n1 n0 = false }.

(** The laws of exact arithmetic that statements about sums need. *)
Class NumExact (NN : Num) : Prop := {
  nadd_comm : forall a b : num, nadd a b = nadd b a;
  nadd_assoc : forall a b c : num, nadd a (nadd b c) = nadd (nadd a b) c;
  nadd_0_l : forall a : num, nadd n0 a = a;
  nmul_inv : forall v r : num, neqb r n0 = false -> nmul v (ndiv n1 r) = ndiv v r }.

(** ** The exact instance *)

Inductive xq : Type := Fin (q : Qc) | Inf (neg : bool) | NaN.

Definition Qcfloor (q : Qc) : Z := Qfloor (this q).
Definition Qctrunc (q : Qc) : Z := Z.quot (Qnum (this q)) (Zpos (Qden (this q))).
Definition QcZ (z : Z) : Qc := Q2Qc (inject_Z z).
Definition Qc_ltb (a b : Qc) : bool := match (a ?= b)%Qc with Lt => true | _ => false end.
Definition Qc_leb (a b : Qc) : bool := match (a ?= b)%Qc with Gt => false | _ => true end.
Definition Qc_eqb (a b : Qc) : bool := match (a ?= b)%Qc with Eq => true | _ => false end.
Definition Qcneg (q : Qc) : bool := Qc_ltb q (QcZ 0).
Definition Qczero (q : Qc) : bool := Qc_eqb q (QcZ 0).

(** 10^e *)
Definition Qcpow10 (e : Z) : Qc :=
  if 0 <=? e then QcZ (10 ^ e) else (/ QcZ (10 ^ (- e)))%Qc.

Definition xadd (a b : xq) : xq :=
  match a, b with
  | NaN, _ | _, NaN => NaN
  | Fin p, Fin q => Fin (p + q)%Qc
  | Inf s, Fin _ | Fin _, Inf s => Inf s
  | Inf s, Inf t => if Bool.eqb s t then Inf s else NaN
  end.
Definition xopp (a : xq) : xq :=
  match a with NaN => NaN | Fin p => Fin (- p)%Qc | Inf s => Inf (negb s) end.
Definition xsub (a b : xq) : xq := xadd a (xopp b).
Definition xmul (a b : xq) : xq :=
  match a, b with
  | NaN, _ | _, NaN => NaN
  | Fin p, Fin q => Fin (p * q)%Qc
  | Inf s, Fin q | Fin q, Inf s => if Qczero q then NaN else Inf (xorb s (Qcneg q))
  | Inf s, Inf t => Inf (xorb s t)
  end.
Definition xdiv (a b : xq) : xq :=
  match a, b with
  | NaN, _ | _, NaN => NaN
  | Fin p, Fin q => Fin (p / q)%Qc
  | Inf s, Fin q => Inf (xorb s (Qcneg q))
  | Fin _, Inf _ => Fin (QcZ 0)
  | Inf _, Inf _ => NaN
  end.
Definition xltb (a b : xq) : bool :=
  match a, b with
  | NaN, _ | _, NaN => false
  | Fin p, Fin q => Qc_ltb p q
  | Inf true, Inf true => false
  | Inf true, _ => true
  | Inf false, _ => false
  | Fin _, Inf s => negb s
  end.
Definition xeqb (a b : xq) : bool :=
  match a, b with
  | Fin p, Fin q => Qc_eqb p q
  | Inf s, Inf t => Bool.eqb s t
  | _, _ => false
  end.
Definition xleb (a b : xq) : bool := xltb a b || xeqb a b.
Definition xlit (l : flit) : xq :=
  match l with
  | FNan => NaN
  | FInf s => Inf s
  | FDec s m e => Fin ((if s then QcZ (- m) else QcZ m) * Qcpow10 e)%Qc
  end.
Definition xtrunc (a : xq) : res Z :=
  match a with
  | Fin q => Ok (Qctrunc q)
  | Inf _ => Exn OverflowError
  | NaN => Exn ValueError
  end.
Definition xfloor (a : xq) : xq :=
  match a with Fin q => Fin (QcZ (Qcfloor q)) | _ => a end.
(** round half away from zero to [n] decimals *)
Definition Qcround0 (q : Qc) : Z :=
  let h := Q2Qc (1 # 2) in
  if Qcneg q then - Qcfloor (- q + h)%Qc else Qcfloor (q + h)%Qc.
Definition xround (n : Z) (a : xq) : xq :=
  match a with
  | Fin q => Fin (QcZ (Qcround0 (q * Qcpow10 n)%Qc) * Qcpow10 (- n))%Qc
  | _ => a
  end.
(** the square root itself is a parameter: no theorem depends on its value *)
Definition xsqrt (sq : Qc -> Qc) (a : xq) : res xq :=
  match a with
  | Fin q => if Qcneg q then Exn ValueError else Ok (Fin (sq q))
  | Inf true => Exn ValueError
  | _ => Ok a
  end.

Definition XQ (sq : Qc -> Qc) : Num :=
  {| num := xq; nadd := xadd; nsub := xsub; nmul := xmul; ndiv := xdiv;
     nltb := xltb; nleb := xleb; neqb := xeqb;
     nofZ := fun z => Fin (QcZ z); nlit := xlit; ntrunc := xtrunc;
     nfloor := xfloor; nround := xround; nsqrt := xsqrt sq |}.

Global Instance XQ_law sq : NumLaw (XQ sq).
Proof. constructor. reflexivity. Qed.
