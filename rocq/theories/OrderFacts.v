(** [<=] is transitive on the exact numbers and on binary64. *)
From Verif Require Import Base Num NumFacts TimerFacts XQFacts B64.
From Coq Require Import QArith Qcanon Floats.SpecFloat.
Open Scope Z_scope.

Lemma xleb_trans (a b c : xq) : xleb a b = true -> xleb b c = true -> xleb a c = true.
Proof.
  unfold xleb. destruct a as [a|s|], b as [b|s'|], c as [c|s''|]; cbn; try discriminate;
    try (destruct s; cbn; try discriminate; auto; fail); try (destruct s'; cbn; try discriminate; auto; fail);
    try (destruct s''; cbn; try discriminate; auto; fail);
    try (destruct s, s'; cbn; try discriminate; auto; fail); try (destruct s', s''; cbn; try discriminate; auto; fail);
    try (destruct s, s''; cbn; try discriminate; auto; fail); try (destruct s, s', s''; cbn; try discriminate; auto; fail).
  rewrite !orb_true_iff, !Qc_ltb_lt, !Qc_eqb_eq. intros [H1|H1] [H2|H2]; subst; auto. left. eapply Qclt_trans; eauto.
Qed.
Lemma SFleb_key a b : a <> S754_nan -> b <> S754_nan -> (SFleb a b = true <-> ~ klt (fkey b) (fkey a)).
Proof.
  intros Ha Hb. rewrite <- (SFltb_key b a Hb Ha). unfold SFleb, SFltb, SFcompare.
  destruct a as [s|s| |s m e], b as [s'|s'| |s' m' e']; try congruence;
    destruct s, s'; cbn; try (split; [intros; discriminate|intros H; (reflexivity || (exfalso; apply H; reflexivity))]).
  - rewrite (Z.compare_antisym e e'). destruct (Z.compare_spec e e'); cbn; [subst|split; [discriminate|intros H'; exfalso; apply H'; reflexivity]|split; [discriminate|reflexivity]].
    fold (Pos.compare m m') (Pos.compare m' m). rewrite (Pos.compare_antisym m m'). destruct (Pos.compare_spec m m'); cbn; split; try discriminate; try reflexivity; intros H'; exfalso; apply H'; reflexivity.
  - rewrite (Z.compare_antisym e e'). destruct (Z.compare_spec e e'); cbn; [subst|split; [discriminate|reflexivity]|split; [discriminate|intros H'; exfalso; apply H'; reflexivity]].
    fold (Pos.compare m m') (Pos.compare m' m). rewrite (Pos.compare_antisym m m'). destruct (Pos.compare_spec m m'); cbn; split; try discriminate; try reflexivity; intros H'; exfalso; apply H'; reflexivity.
Qed.
Lemma SFleb_nan a b : SFleb a b = true -> a <> S754_nan /\ b <> S754_nan.
Proof. unfold SFleb, SFcompare. destruct a, b; try discriminate; intros; split; discriminate. Qed.
Lemma SFleb_trans a b c : SFleb a b = true -> SFleb b c = true -> SFleb a c = true.
Proof.
  intros H1 H2. destruct (SFleb_nan _ _ H1), (SFleb_nan _ _ H2). rewrite SFleb_key in * by assumption.
  apply (klt_total _ _ _ H2 H1).
Qed.
(** numbers whose [<=] is transitive and whose zero equals itself *)
Class NumLe (NN : Num) : Prop := {
  nleb_trans : forall a b c : Num.num, nleb a b = true -> nleb b c = true -> nleb a c = true;
  le_zero : nleb n0 n0 = true }.
Global Instance XQ_le sq : NumLe (XQ sq).
Proof. split; [exact xleb_trans|vm_compute; reflexivity]. Qed.
Global Instance B64_le : NumLe B64.
Proof. split; [exact SFleb_trans|vm_compute; reflexivity]. Qed.
