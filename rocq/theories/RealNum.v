(** The numbers of the model over the reals of the standard library: needed
    where the code uses exp.  There is no NaN or infinity here (the two literals
    are mapped to 0); the statements made over this instance use no literal. *)
From Verif Require Import Base Num TimerFacts.
From Coq Require Import Reals Lra.
Open Scope R_scope.

Definition Rltb (a b : R) : bool := if Rlt_dec a b then true else false.
Definition Rleb (a b : R) : bool := if Rle_dec a b then true else false.
Definition Reqb' (a b : R) : bool := if Req_EM_T a b then true else false.
Definition Rtrunc (a : R) : Z := if Rle_dec 0 a then Int_part a else (- Int_part (- a))%Z.
Definition Rround (n : Z) (a : R) : R :=
  let s := powerRZ 10 n in
  (if Rle_dec 0 a then IZR (Int_part (a * s + / 2)) else - IZR (Int_part (- a * s + / 2))) / s.
Definition RN : Num :=
  {| Num.num := R; nadd := Rplus; nsub := Rminus; nmul := Rmult; ndiv := Rdiv;
     nltb := Rltb; nleb := Rleb; neqb := Reqb'; nofZ := IZR;
     nlit := fun l => match l with
                      | FDec s m e => IZR (if s then - m else m)%Z * powerRZ 10 e
                      | _ => 0
                      end;
     ntrunc := fun a => Ok (Rtrunc a);
     nfloor := fun a => IZR (Int_part a); nround := Rround;
     nsqrt := fun a => if Rlt_dec a 0 then Exn ValueError else Ok (sqrt a) |}.

Lemma Rltb_true a b : Rltb a b = true <-> a < b.
Proof. unfold Rltb. destruct (Rlt_dec a b); split; auto; discriminate. Qed.
Lemma Rltb_false a b : Rltb a b = false <-> b <= a.
Proof. unfold Rltb. destruct (Rlt_dec a b); split; auto; [discriminate|lra|intros; lra]. Qed.
Lemma Rleb_true a b : Rleb a b = true <-> a <= b.
Proof. unfold Rleb. destruct (Rle_dec a b); split; auto; discriminate. Qed.
Lemma Reqb_true a b : Reqb' a b = true <-> a = b.
Proof. unfold Reqb'. destruct (Req_EM_T a b); split; auto; discriminate. Qed.
