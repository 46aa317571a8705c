(** The binary64 instance of [Num], from the specification of IEEE arithmetic in
    Coq's standard library.  It is used to refute claims that hold only in exact
    arithmetic, and it satisfies the laws ([NumLaw], [NumOrd]) the theorems about
    every arithmetic need, so those theorems hold for python floats.
    Simplification: int to float conversion of integers beyond 2^1024 gives
    infinity here and OverflowError in python. *)
From Verif Require Import Base Num TimerFacts.
From Coq Require Import Floats.SpecFloat.
Open Scope Z_scope.

Definition prec : Z := 53.
Definition emax : Z := 1024.
Definition f64 := spec_float.

(** a/b correctly rounded, for a >= 0, b > 0 *)
Definition frat (s : bool) (a b : Z) : f64 :=
  match a with
  | Zpos _ => let '(m, e, l) := SFdiv_core_binary prec emax a 0 b 0 in binary_round_aux prec emax s m e l
  | _ => S754_zero s
  end.
Definition f_lit (l : flit) : f64 :=
  match l with
  | FNan => S754_nan
  | FInf s => S754_infinity s
  | FDec s m e => if 0 <=? e then frat s (m * 10 ^ e) 1 else frat s m (10 ^ (- e))
  end.
Definition f_ofZ (z : Z) : f64 := binary_normalize prec emax z 0 false.

(** a finite float as a fraction of non-negative integers *)
Definition f_frac (m : positive) (e : Z) : Z * Z :=
  if 0 <=? e then (Zpos m * 2 ^ e, 1) else (Zpos m, 2 ^ (- e)).
Definition f_trunc (x : f64) : res Z :=
  match x with
  | S754_zero _ => Ok 0
  | S754_infinity _ => Exn OverflowError
  | S754_nan => Exn ValueError
  | S754_finite s m e => let '(a, b) := f_frac m e in Ok (if s then - (a / b) else a / b)
  end.
Definition f_floor (x : f64) : f64 :=
  match x with
  | S754_finite s m e =>
      let '(a, b) := f_frac m e in
      let z := if s then - ((a + b - 1) / b) else a / b in
      if z =? 0 then S754_zero s else f_ofZ z
  | _ => x
  end.
Definition f_round (n : Z) (x : f64) : f64 :=
  match x with
  | S754_finite s m e =>
      let '(a, b) := f_frac m e in
      let p := 10 ^ n in
      frat s ((2 * a * p + b) / (2 * b)) p
  | _ => x
  end.
Definition f_sqrt (x : f64) : res f64 :=
  match x with
  | S754_finite true _ _ | S754_infinity true => Exn ValueError
  | _ => Ok (SFsqrt prec emax x)
  end.

Definition B64 : Num :=
  {| num := f64; nadd := SFadd prec emax; nsub := SFsub prec emax; nmul := SFmul prec emax;
     ndiv := SFdiv prec emax; nltb := SFltb; nleb := SFleb; neqb := SFeqb;
     nofZ := f_ofZ; nlit := f_lit; ntrunc := f_trunc; nfloor := f_floor; nround := f_round;
     nsqrt := f_sqrt |}.

Global Instance B64_law : NumLaw B64.
Proof. constructor. vm_compute. reflexivity. Qed.

(** a float as a lexicographic key: class, exponent, mantissa *)
Definition fkey (x : f64) : Z * Z * Z :=
  match x with
  | S754_nan => (0, 0, 0)
  | S754_infinity s => (if s then -2 else 2, 0, 0)
  | S754_zero _ => (0, 0, 0)
  | S754_finite s m e => if s then (-1, - e, - Zpos m) else (1, e, Zpos m)
  end.
Definition klt (a b : Z * Z * Z) : Prop :=
  let '(a1, a2, a3) := a in let '(b1, b2, b3) := b in
  a1 < b1 \/ (a1 = b1 /\ (a2 < b2 \/ (a2 = b2 /\ a3 < b3))).
Lemma SFltb_key a b : a <> S754_nan -> b <> S754_nan -> (SFltb a b = true <-> klt (fkey a) (fkey b)).
Proof.
  intros Ha Hb. unfold SFltb, SFcompare, klt, fkey.
  destruct a as [s|s| |s m e], b as [s'|s'| |s' m' e']; try congruence;
    destruct s, s'; cbn; try (split; [intros; lia|intros H; (reflexivity || (exfalso; lia))]);
    try (split; [discriminate|intros H; exfalso; lia]).
  - destruct (Z.compare_spec e e'); cbn; [subst|split; [discriminate|intros; exfalso; lia]|split; [intros _; lia|reflexivity]].
    fold (Pos.compare m m'). destruct (Pos.compare_spec m m'); cbn; split; try discriminate; try reflexivity; intros; try lia.
  - destruct (Z.compare_spec e e'); cbn; [subst|split; [intros _; lia|reflexivity]|split; [discriminate|intros; exfalso; lia]].
    fold (Pos.compare m m'). destruct (Pos.compare_spec m m'); cbn; split; try discriminate; try reflexivity; intros; try lia.
Qed.
Lemma klt_total a b c : ~ klt a b -> ~ klt b c -> ~ klt a c.
Proof. destruct a as [[a1 a2] a3], b as [[b1 b2] b3], c as [[c1 c2] c3]. unfold klt. lia. Qed.
Lemma klt_asym a b : klt a b -> ~ klt b a.
Proof. destruct a as [[a1 a2] a3], b as [[b1 b2] b3]. unfold klt. lia. Qed.
Global Instance B64_ord : NumOrd B64.
Proof.
  refine {| nok := (fun x : f64 => x <> S754_nan) : @Num.num B64 -> Prop |}.
  - intros a b Ha Hb H. cbn in *. apply not_true_is_false. intros H'.
    rewrite SFltb_key in H, H' by assumption. exact (klt_asym _ _ H H').
  - intros a b c Ha Hb Hc H1 H2. cbn in *. apply not_true_is_false. intros H'.
    apply not_true_iff_false in H1, H2. rewrite SFltb_key in H1, H2, H' by assumption.
    exact (klt_total _ _ _ H1 H2 H').
Defined.

Example tenth : f_lit (FDec false 1 (-1)) = S754_finite false 7205759403792794 (-56).
Proof. vm_compute. reflexivity. Qed.
Example third_round : f_round 6 (SFdiv prec emax (f_ofZ 2) (f_ofZ 3)) = f_lit (FDec false 666667 (-6)).
Proof. vm_compute. reflexivity. Qed.
Example half_away : f_round 0 (f_lit (FDec false 25 (-1))) = f_ofZ 3 /\ f_round 0 (f_lit (FDec true 25 (-1))) = f_ofZ (-3).
Proof. split; vm_compute; reflexivity. Qed.
