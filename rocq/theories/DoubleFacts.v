(** Whole counts are conserved in binary64, not only in exact arithmetic. *)
From Verif Require Import Base StrFacts Num Env Stats Glob Metrics Gen GenFacts Processor
  LineSpec LineFacts FloatFacts ProcFacts ProcSpec ReceiveFacts ReceiveFacts2 ReceiveFacts3 PlugFacts
  Sched FlushInv FlushOk SchedFacts BlockFacts B64 WholeFacts RouterSpec Router RouterFacts RouterProps Server ServerSpec ServerFacts
  Daemon DaemonFacts.
From Coq Require Import Floats.SpecFloat.
Open Scope Z_scope.

Global Instance f64_eq : EqDecision f64.
Proof. solve_decision. Defined.
Global Program Instance f64_countable : Countable f64 :=
  inj_countable'
    (fun x => match x with S754_zero s => inl (inl (s, true)) | S754_infinity s => inl (inl (s, false)) | S754_nan => inl (inr tt)
              | S754_finite s m e => inr (s, m, e) end)
    (fun x => match x with inl (inl (s, true)) => S754_zero s | inl (inl (s, false)) => S754_infinity s | inl (inr tt) => S754_nan
              | inr (s, m, e) => S754_finite s m e end) _.
Next Obligation. intros []; reflexivity. Qed.
Global Instance B64_eq : EqDecision (@Num.num B64) := f64_eq.
Global Instance B64_countable : Countable (@Num.num B64) := f64_countable.

Definition zsum (l : list Z) : Z := fold_right Z.add 0 l.
Definition zsize (l : list Z) : Z := zsum (map Z.abs l).
Lemma zsum_app l k : zsum (l ++ k) = zsum l + zsum k.
Proof. induction l as [|x l IH]; cbn; [reflexivity|]. unfold zsum in *. lia. Qed.
Lemma zsize_app l k : zsize (l ++ k) = zsize l + zsize k.
Proof. unfold zsize. rewrite map_app. apply zsum_app. Qed.
Lemma zsize_bound l : Z.abs (zsum l) <= zsize l.
Proof. induction l as [|x l IH]; cbn; [lia|]. unfold zsize in IH. cbn in IH. unfold zsum in *. lia. Qed.
Lemma zsum_perm l k : l ≡ₚ k -> zsum l = zsum k.
Proof. induction 1; cbn; unfold zsum in *; lia. Qed.

(** the double [x] is [z] times 2^u, with [z] no larger than 2^53 *)
Definition worth (u : Z) (x : @Num.num B64) (z : Z) : Prop := in_range z /\ units u z x.

Section whole.
Context (u : Z) (Hu : -1000 <= u <= 900).
Notation units := (units u).
Lemma units_n0 z : in_range z -> units z (n0 (NN := B64)) -> z = 0.
Proof using Hu.
  intros Hz H. destruct (Z.eq_dec z 0) as [|Hn]; [assumption|].
  destruct (units_finite u z _ H Hz Hu Hn) as (m & e & _ & Hf & _). discriminate.
Qed.
Lemma units_zero' : units 0 (n0 (NN := B64)).
Proof. apply units_zero. exists false. reflexivity. Qed.
Lemma worth_zero : worth u (n0 (NN := B64)) 0.
Proof. split; [unfold in_range; cbn; lia|exact units_zero']. Qed.
(** a running sum is exact *)
Lemma running_exact l zs : Forall2 (worth u) l zs -> zsize zs <= 2 ^ 53 ->
  units (zsum zs) (running_sum (NN := B64) l).
Proof using Hu.
  unfold running_sum. enough (H : forall l zs, Forall2 (worth u) l zs -> forall a x, units a x -> Z.abs a + zsize zs <= 2 ^ 53 ->
    units (a + zsum zs) (fold_left (nadd (Num := B64)) l x)).
  { intros Hl Hz. apply (H l zs Hl 0 (n0 (NN := B64)) units_zero'). lia. }
  clear l zs. induction 1 as [|x z l zs Hx _ IH]; intros a y Hy Hz.
  - cbn. rewrite Z.add_0_r. exact Hy.
  - cbn [fold_left]. change (zsum (z :: zs)) with (z + zsum zs). rewrite Z.add_assoc. 
    change (zsize (z :: zs)) with (Z.abs z + zsize zs) in Hz.
    assert (0 <= zsize zs) by (pose proof (zsize_bound zs); lia).
    apply IH; [|lia]. destruct Hx as [_ Hx]. apply units_add; unfold in_range; try assumption; lia.
Qed.

(** lists that agree but for zeros *)
Lemma nonzero_units (l : list (@Num.num B64)) : forall zs, Forall2 (worth u) l zs ->
  exists zs', Forall2 (worth u) (nonzero (NN := B64) l) zs' /\ zsum zs' = zsum zs.
Proof using Hu.
  induction l as [|x l IH]; intros zs H; inversion H as [|? z ? zs0 Hx Hl]; subst.
  - exists []. split; [constructor|reflexivity].
  - destruct (IH zs0 Hl) as (zs' & H1 & H2). unfold nonzero in *.
    rewrite stdpp.list.filter_cons. destruct (decide (x <> n0)) as [Hn|Hn].
    + exists (z :: zs'). split; [constructor; assumption|]. cbn. unfold zsum in *. lia.
    + assert (x = n0) as -> by (destruct (decide (x = n0)); tauto). destruct Hx as [Hz Hx]. apply units_n0 in Hx; [|exact Hz]. subst z.
      exists zs'. split; [exact H1|]. cbn. exact H2.
Qed.
Lemma units_nonzero (l : list (@Num.num B64)) : forall zs, Forall2 (worth u) (nonzero (NN := B64) l) zs ->
  exists zs', Forall2 (worth u) l zs' /\ zsum zs' = zsum zs.
Proof using Hu.
  unfold nonzero. induction l as [|x l IH]; intros zs H.
  - inversion H; subst. exists []. split; [constructor|reflexivity].
  - rewrite stdpp.list.filter_cons in H. destruct (decide (x <> n0)) as [Hn|Hn].
    + inversion H as [|? z ? zs0 Hx Hl]; subst. destruct (IH _ Hl) as (zs' & H1 & H2).
      exists (z :: zs'). split; [constructor; assumption|]. cbn. unfold zsum in *. lia.
    + assert (x = n0) as -> by (destruct (decide (x = n0)); tauto). destruct (IH _ H) as (zs' & H1 & H2).
      exists (0 :: zs'). split; [constructor; [exact worth_zero|assumption]|]. cbn. exact H2.
Qed.
Lemma split_blocks (blocks : list (list (@Num.num B64))) : forall zs, Forall2 (worth u) (concat blocks) zs ->
  exists zb, concat zb = zs /\ Forall2 (Forall2 (worth u)) blocks zb.
Proof.
  induction blocks as [|b blocks IH]; intros zs H; cbn [concat] in H.
  - inversion H; subst. exists []. split; [reflexivity|constructor].
  - apply Forall2_app_inv_l in H as (z1 & z2 & H1 & H2 & ->). destruct (IH _ H2) as (zb & <- & Hb).
    exists (z1 :: zb). split; [reflexivity|constructor; assumption].
Qed.
Lemma block_sums blocks zb : Forall2 (Forall2 (worth u)) blocks zb -> zsize (concat zb) <= 2 ^ 53 ->
  Forall2 (worth u) (map (running_sum (NN := B64)) blocks) (map zsum zb) /\ zsum (map zsum zb) = zsum (concat zb).
Proof using Hu.
  induction 1 as [|b z blocks zb Hb _ IH]; intros Hz; [repeat split; constructor|].
  cbn [concat] in Hz. rewrite zsize_app in Hz.
  assert (0 <= zsize z) by (pose proof (zsize_bound z); lia).
  assert (0 <= zsize (concat zb)) by (pose proof (zsize_bound (concat zb)); lia).
  destruct IH as (I1 & I3); [lia|]. cbn [map]. split.
  - constructor; [|exact I1]. split; [unfold in_range; pose proof (zsize_bound z); lia|]. apply running_exact; [exact Hb|lia].
  - cbn [concat]. rewrite zsum_app. rewrite <- I3. reflexivity.
Qed.

Theorem whole_counts E plugins key es accepted zs : Forall sane es ->
  picks (counter_amount (NN := B64) key) (lines es) accepted -> Forall2 (worth u) accepted zs -> zsize zs <= 2 ^ 53 ->
  let y := sys_run E plugins es sys_init in
  exists sent waiting stored,
    Forall2 (worth u) (values_in key (y_out y)) sent /\
    Forall2 (worth u) (values_in key (flat_map pending (y_live y ++ y_gone y))) waiting /\
    worth u (default n0 (p_counter (y_st y) !! key)) stored /\
    zsum sent + zsum waiting + stored = zsum zs.
Proof using Hu.
  intros Hs Hp Hz Hb y. destruct (counts_in_blocks E plugins key es Hs) as (acc & blocks & H1 & H2 & H3). fold y in H3.
  assert (acc = accepted) as ->.
  { clear -H1 Hp. revert accepted Hp. induction H1 as [|m a ms l Ha _ IH|m ms l Hn _ IH]; intros k Hk; inversion Hk as [|? b ? k' Hb Hk'|? ? ? Hb Hk']; subst.
    - reflexivity.
    - f_equal; [eapply counter_amount_fun; eassumption|auto].
    - destruct (Hb a Ha).
    - destruct (Hn b Hb).
    - auto. }
  rewrite <- H2 in Hz. destruct (split_blocks blocks zs Hz) as (zb & <- & Hzb).
  destruct (block_sums blocks zb Hzb Hb) as (B1 & B3).
  destruct (nonzero_units _ _ B1) as (z1 & N1 & N2).
  destruct (Permutation_Forall2 H3 N1) as (z2 & P1 & P2).
  destruct (units_nonzero _ _ P2) as (z3 & Q1 & Q2).
  unfold present in Q1. apply Forall2_app_inv_l in Q1 as (sent & r & S1 & S2 & ->). apply Forall2_app_inv_l in S2 as (waiting & r' & S3 & S4 & ->).
  inversion S4 as [|? stored ? ? S5 S6]; subst. inversion S6; subst.
  exists sent, waiting, stored. split; [exact S1|]. split; [exact S3|]. split; [exact S5|].
  rewrite !zsum_app in Q2. cbn [zsum fold_right] in Q2. apply zsum_perm in P1. unfold zsum in *. cbn in Q2. lia.
Qed.
End whole.
