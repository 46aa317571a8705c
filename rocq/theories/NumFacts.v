(** Laws of the exact numbers. *)
From Verif Require Import Base Num.
From Coq Require Import QArith Qcanon Qround.
Open Scope Z_scope.

Lemma Qc_eqb_eq a b : Qc_eqb a b = true <-> a = b.
Proof. unfold Qc_eqb. rewrite Qceq_alt. destruct (a ?= b)%Qc; split; congruence. Qed.
Lemma Qc_ltb_lt a b : Qc_ltb a b = true <-> (a < b)%Qc.
Proof. unfold Qc_ltb. rewrite Qclt_alt. destruct (a ?= b)%Qc; split; congruence. Qed.
Lemma Qc_ltb_ge a b : Qc_ltb a b = false <-> (b <= a)%Qc.
Proof.
  split.
  - intros H. apply Qcnot_lt_le. intros H'. apply Qc_ltb_lt in H'. congruence.
  - intros H. destruct (Qc_ltb a b) eqn:E; [|reflexivity]. apply Qc_ltb_lt in E.
    exfalso. eapply Qcle_not_lt; eauto.
Qed.

Lemma QcZ_0 : QcZ 0 = 0%Qc. Proof. apply Qc_is_canon. reflexivity. Qed.
Lemma QcZ_1 : QcZ 1 = 1%Qc. Proof. apply Qc_is_canon. reflexivity. Qed.
Lemma QcZ_add a b : QcZ (a + b) = (QcZ a + QcZ b)%Qc.
Proof.
  apply Qc_is_canon. unfold QcZ, Qcplus, Q2Qc. simpl this. rewrite !Qred_correct.
  rewrite inject_Z_plus. reflexivity.
Qed.
Lemma QcZ_mul a b : QcZ (a * b) = (QcZ a * QcZ b)%Qc.
Proof.
  apply Qc_is_canon. unfold QcZ, Qcmult, Q2Qc. simpl this. rewrite !Qred_correct.
  rewrite inject_Z_mult. reflexivity.
Qed.
Lemma QcZ_opp a : QcZ (- a) = (- QcZ a)%Qc.
Proof.
  apply Qc_is_canon. unfold QcZ, Qcopp, Q2Qc. simpl this. rewrite !Qred_correct.
  rewrite inject_Z_opp. reflexivity.
Qed.
Lemma QcZ_this z : (this (QcZ z) == inject_Z z)%Q.
Proof. unfold QcZ, Q2Qc. simpl this. apply Qred_correct. Qed.
Lemma QcZ_le a b : (QcZ a <= QcZ b)%Qc <-> a <= b.
Proof. unfold Qcle. rewrite !QcZ_this. rewrite <- Zle_Qle. reflexivity. Qed.
Lemma QcZ_lt a b : (QcZ a < QcZ b)%Qc <-> a < b.
Proof. unfold Qclt. rewrite !QcZ_this. rewrite <- Zlt_Qlt. reflexivity. Qed.
Lemma QcZ_inj a b : QcZ a = QcZ b -> a = b.
Proof.
  intros H. assert (H1 : (QcZ a <= QcZ b)%Qc) by (rewrite H; apply Qcle_refl).
  assert (H2 : (QcZ b <= QcZ a)%Qc) by (rewrite H; apply Qcle_refl).
  rewrite QcZ_le in H1, H2. lia.
Qed.

(** ** addition is a commutative monoid, also with infinities and NaN *)
Definition x0 : xq := Fin (QcZ 0).
Lemma xadd_comm a b : xadd a b = xadd b a.
Proof.
  destruct a as [p|s|], b as [q|t|]; simpl; try reflexivity.
  - f_equal. apply Qcplus_comm.
  - destruct s, t; reflexivity.
Qed.
Lemma xadd_assoc a b c : xadd a (xadd b c) = xadd (xadd a b) c.
Proof.
  destruct a as [p|s|], b as [q|t|], c as [r|u|]; simpl; try reflexivity;
    try (f_equal; apply Qcplus_assoc);
    repeat match goal with x : bool |- _ => destruct x end; reflexivity.
Qed.
Lemma xadd_0_l a : xadd x0 a = a.
Proof. destruct a; simpl; try reflexivity. f_equal. rewrite QcZ_0. apply Qcplus_0_l. Qed.
Lemma xadd_0_r a : xadd a x0 = a.
Proof. rewrite xadd_comm. apply xadd_0_l. Qed.

Lemma fold_xadd l a b : fold_left xadd l (xadd a b) = xadd a (fold_left xadd l b).
Proof.
  revert b. induction l as [|x l IH]; intros b; simpl; [reflexivity|].
  rewrite <- xadd_assoc. apply IH.
Qed.
Lemma fold_xadd_0 l a : fold_left xadd l a = xadd a (fold_left xadd l x0).
Proof. rewrite <- (xadd_0_r a) at 1. apply fold_xadd. Qed.
Lemma fold_xadd_perm l l' a : l ≡ₚ l' -> fold_left xadd l a = fold_left xadd l' a.
Proof.
  intros H. revert a. induction H; intros a; simpl; auto.
  - f_equal. rewrite <- !xadd_assoc. f_equal. apply xadd_comm.
  - rewrite IHPermutation1. apply IHPermutation2.
Qed.
Definition xsum (l : list xq) : xq := fold_left xadd l x0.
Lemma xsum_app l k : xsum (l ++ k) = xadd (xsum l) (xsum k).
Proof. unfold xsum. rewrite fold_left_app. apply fold_xadd_0. Qed.
Lemma xsum_cons x l : xsum (x :: l) = xadd x (xsum l).
Proof. unfold xsum. cbn [fold_left]. rewrite xadd_0_l. apply fold_xadd_0. Qed.

(** ** comparison *)
Lemma xltb_irrefl a : xltb a a = false.
Proof.
  destruct a as [p|[]|]; simpl; try reflexivity. apply Qc_ltb_ge, Qcle_refl.
Qed.
Lemma xltb_trans a b c : xltb a b = true -> xltb b c = true -> xltb a c = true.
Proof.
  destruct a as [p|[]|], b as [q|[]|], c as [r|[]|]; simpl; try easy.
  rewrite !Qc_ltb_lt. intros. eapply Qclt_trans; eauto.
Qed.
Lemma xeqb_eq a b : a <> NaN -> (xeqb a b = true <-> a = b).
Proof.
  intros Ha. destruct a as [p|s|], b as [q|t|]; simpl; try (split; congruence).
  - rewrite Qc_eqb_eq. split; congruence.
  - destruct s, t; simpl; split; congruence.
Qed.
Lemma xltb_total a b : a <> NaN -> b <> NaN -> xltb a b = false -> xltb b a = false -> a = b.
Proof.
  destruct a as [p|[]|], b as [q|[]|]; simpl; try easy; try congruence.
  rewrite !Qc_ltb_ge. intros _ _ H1 H2. f_equal. apply Qcle_antisym; auto.
Qed.

(** ** linear arithmetic on [Qc] *)
From Coq Require Import Lqa.
Lemma this_add a b : (this (a + b)%Qc == this a + this b)%Q.
Proof. unfold Qcplus, Q2Qc. simpl this. apply Qred_correct. Qed.
Lemma this_mul a b : (this (a * b)%Qc == this a * this b)%Q.
Proof. unfold Qcmult, Q2Qc. simpl this. apply Qred_correct. Qed.
Lemma this_opp a : (this (- a)%Qc == - this a)%Q.
Proof. unfold Qcopp, Q2Qc. simpl this. apply Qred_correct. Qed.
Lemma this_sub a b : (this (a - b)%Qc == this a - this b)%Q.
Proof. unfold Qcminus. rewrite this_add, this_opp. reflexivity. Qed.
Lemma this_inv a : (this (/ a)%Qc == / this a)%Q.
Proof. unfold Qcinv, Q2Qc. simpl this. apply Qred_correct. Qed.
Lemma this_div a b : (this (a / b)%Qc == this a / this b)%Q.
Proof. unfold Qcdiv, Qdiv. rewrite this_mul, this_inv. reflexivity. Qed.
Lemma this_0 : (this 0%Qc == 0)%Q. Proof. reflexivity. Qed.
Lemma this_1 : (this 1%Qc == 1)%Q. Proof. reflexivity. Qed.
Lemma this_inj a b : (this a == this b)%Q <-> a = b.
Proof. split; [apply Qc_is_canon|intros ->; reflexivity]. Qed.
Ltac qc_prep :=
  try unfold Qcle in *; try unfold Qclt in *;
  repeat match goal with H : @eq Qc _ _ |- _ => apply this_inj in H end;
  repeat match goal with H : ~ (@eq Qc _ _) |- _ => rewrite <- this_inj in H end;
  try match goal with |- @eq Qc _ _ => apply this_inj end;
  repeat (rewrite ?this_sub, ?this_div, ?this_add, ?this_mul, ?this_opp, ?this_inv, ?this_0, ?this_1, ?QcZ_this in *).
Ltac qc_lra := qc_prep; lra.
Ltac qc_nra := qc_prep; nra.
Lemma qc_lra_test (a b c : Qc) : (a < b)%Qc -> (b <= c - QcZ 1)%Qc -> (a + 1 < c)%Qc.
Proof. intros. qc_lra. Qed.

Lemma xmul_inv v r : xeqb r (Fin (QcZ 0)) = false -> xmul v (xdiv (Fin (QcZ 1)) r) = xdiv v r.
Proof.
  destruct r as [q|t|]; simpl; intros Hr.
  - assert (Hq : q <> QcZ 0). { intros ->. rewrite (proj2 (Qc_eqb_eq _ _) eq_refl) in Hr. discriminate. }
    rewrite QcZ_0 in Hq.
    destruct v as [p|s|]; simpl.
    + f_equal. rewrite QcZ_1. unfold Qcdiv. rewrite Qcmult_1_l. reflexivity.
    + assert (Hz : Qczero (QcZ 1 / q)%Qc = false).
      { unfold Qczero. destruct (Qc_eqb (QcZ 1 / q)%Qc (QcZ 0)) eqn:Hz; [|reflexivity]. exfalso.
        apply Qc_eqb_eq in Hz. rewrite QcZ_0, QcZ_1 in Hz.
        assert (H1 : (q * (1 / q) = 0)%Qc) by (rewrite Hz; ring).
        rewrite Qcmult_div_r in H1 by exact Hq. discriminate. }
      rewrite Hz. f_equal. f_equal. unfold Qcneg.
      destruct (Qc_ltb q (QcZ 0)) eqn:Hn.
      * apply Qc_ltb_lt. apply Qc_ltb_lt in Hn. rewrite QcZ_0 in *. rewrite QcZ_1.
        apply Qcnot_le_lt. intros Hle.
        assert (H1 : (q * (1 / q) = 1)%Qc) by (apply Qcmult_div_r; exact Hq).
        set (i := (1 / q)%Qc) in *. clearbody i. qc_nra.
      * apply Qc_ltb_ge. apply Qc_ltb_ge in Hn. rewrite QcZ_0 in *. rewrite QcZ_1.
        apply Qcnot_lt_le. intros Hlt.
        assert (H1 : (q * (1 / q) = 1)%Qc) by (apply Qcmult_div_r; exact Hq).
        set (i := (1 / q)%Qc) in *. clearbody i. qc_nra.
    + reflexivity.
  - destruct v as [p|s|]; simpl.
    + f_equal. rewrite QcZ_0. apply Qcmult_0_r.
    + reflexivity.
    + reflexivity.
  - destruct v; reflexivity.
Qed.


Global Instance XQ_exact sq : NumExact (XQ sq).
Proof.
  split.
  - exact xadd_comm.
  - exact xadd_assoc.
  - exact xadd_0_l.
  - exact xmul_inv.
Qed.

