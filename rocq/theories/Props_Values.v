(** The operators on the values a client is given (C72): what C68-C72 compute with. *)
From Verif Require Import Base StrFacts Num NumFacts Decimal ClientMetrics ClientMetricsSpec ClientMetricsFacts ClientMetricsFun Demo Props_Metrics.
From Coq Require Import QArith Qcanon.
Open Scope Z_scope.

Section values.
Context (sq : Qc -> Qc).
(** the number a value stands for *)
Definition denotes (v : val (NN := XQ sq)) (q : Qc) : Prop :=
  match v with VInt z => q = QcZ z | VFlt x => x = Fin q | VStr _ => False end.
Lemma value_ops (a b : val (NN := XQ sq)) x y : denotes a x -> denotes b y ->
  (exists c, padd a b = Ok c /\ denotes c (x + y)%Qc) /\ (exists c, psub a b = Ok c /\ denotes c (x - y)%Qc) /\
  (exists c, pneg a = Ok c /\ denotes c (- x)%Qc) /\ denotes (pmul1000 a) (x * QcZ 1000)%Qc /\
  (below_one a = true <-> (x < 1)%Qc) /\ (forall r, above (NN := XQ sq) (Fin r) a = true <-> (x < r)%Qc).
Proof.
  intros Ha Hb. pose proof Qc_ltb_lt as Hlt. pose proof QcZ_1 as H1.
  assert (Hneg : forall q, (QcZ (-1) * q = - q)%Qc). { intros q. assert (H : QcZ (-1) = (- QcZ 1)%Qc) by exact (QcZ_opp 1). rewrite H, H1. ring. }
  assert (Hz : forall z, (QcZ z < 1)%Qc <-> z < 1). { intros z. rewrite <- H1. apply QcZ_lt. }
  destruct a as [z|u|s], b as [w|v|t]; cbn [denotes] in Ha, Hb; try contradiction; subst; cbn -[QcZ Z.mul Z.add Z.sub Z.opp Z.ltb Qcplus Qcmult Qcminus Qcopp];
    repeat match goal with |- _ /\ _ => split end; try (eexists; split; [reflexivity|cbn -[QcZ]]);
    unfold Z.sub, Qcminus; rewrite ?QcZ_add, ?QcZ_opp, ?QcZ_mul, ?Hneg, ?H1; auto.
  all: try (rewrite Hz; apply Z.ltb_lt).
Qed.
Lemma string_ops (s : str) (a : val (NN := XQ sq)) : (exists z, a = VInt z) \/ (exists x, a = VFlt x) ->
  padd a (VStr s) = Exn TypeError /\ psub a (VStr s) = Exn TypeError /\ pneg (NN := XQ sq) (VStr s) = Exn TypeError /\
  below_one (NN := XQ sq) (VStr s) = false /\ (forall r, above (NN := XQ sq) r (VStr s) = false) /\
  pmul1000 (NN := XQ sq) (VStr s) = VStr (concat (repeat s (N.to_nat 1000))).
Proof.
  intros Ha. assert (Hr : N.iter 1000 (fun r => s ++ r) [] = concat (repeat s (N.to_nat 1000))).
  { rewrite N2Nat.inj_iter. generalize (N.to_nat 1000). intros n. induction n as [|n IH]; [reflexivity|].
    rewrite Nat.iter_succ, IH. reflexivity. }
  assert (Hp : pmul1000 (NN := XQ sq) (VStr s) = VStr (concat (repeat s (N.to_nat 1000)))) by (unfold pmul1000; rewrite Hr; reflexivity).
  destruct Ha as [[z ->]|[x ->]]; repeat (split; [reflexivity|]); exact Hp.
Qed.
End values.

(** C72.  On numbers the operators of the client are those of arithmetic: sums, differences,
    negation, seconds to milliseconds; a metric is sampled when its rate is below one, and
    sent unless the random number drawn is above the rate. *)
Theorem C72_values : forall sq (a b : val (NN := XQ sq)) x y, denotes sq a x -> denotes sq b y ->
  (exists c, padd a b = Ok c /\ denotes sq c (x + y)%Qc) /\ (exists c, psub a b = Ok c /\ denotes sq c (x - y)%Qc) /\
  (exists c, pneg a = Ok c /\ denotes sq c (- x)%Qc) /\ denotes sq (pmul1000 a) (x * QcZ 1000)%Qc /\
  (below_one a = true <-> (x < 1)%Qc) /\ (forall r, above (NN := XQ sq) (Fin r) a = true <-> (x < r)%Qc).
Proof. exact value_ops. Qed.
Print Assumptions C72_values.
(** Strings: no arithmetic, never sampled; "milliseconds" of a string is the string a thousand times. *)
Theorem C72_strings : forall sq (s : str) (a : val (NN := XQ sq)), (exists z, a = VInt z) \/ (exists x, a = VFlt x) ->
  padd a (VStr s) = Exn TypeError /\ psub a (VStr s) = Exn TypeError /\ pneg (NN := XQ sq) (VStr s) = Exn TypeError /\
  below_one (NN := XQ sq) (VStr s) = false /\ (forall r, above (NN := XQ sq) r (VStr s) = false) /\
  pmul1000 (NN := XQ sq) (VStr s) = VStr (concat (repeat s (N.to_nat 1000))).
Proof. exact string_ops. Qed.
Print Assumptions C72_strings.
(** a timing of 3 seconds, as sent *)
Example C72_values_case : denotes id (VInt 3) (QcZ 3) /\ denotes id half (QcZ 1 / QcZ 2)%Qc /\
  outcome demo_cenv (demo_conf false) [] (CTiming (Some (B "x")) (Some (VInt 3)) (VInt 1)) = ([B "app.x:3000|ms"], Ok tt).
Proof.
  split; [reflexivity|]. split; [|vm_compute; reflexivity]. change (@eq xq (xlit (FDec false 5 (-1))) (Fin (QcZ 1 / QcZ 2)%Qc)). unfold xlit. vm_compute. f_equal. apply Qc_is_canon. reflexivity.
Qed.
(** The text of a value: a string is sent as given, an int as its decimal text, a float as
    str() writes it. *)
Theorem C72_texts : forall (NN : Num) (CE : cenv), (forall s, show CE (VStr s) = s) /\ (forall t z, decimal t z <-> t = show CE (VInt z)) /\
  (forall x, show CE (VFlt x) = c_show CE x).
Proof. intros NN CE. split; [reflexivity|]. split; [exact show_Z_decimal|reflexivity]. Qed.
Print Assumptions C72_texts.
Example C72_texts_case : outcome demo_cenv (demo_conf false) [] (CReport (Some (B "x")) (VStr (B " 1 ")) (B "u") None) = ([B "app.x: 1 |u"], Ok tt).
Proof. vm_compute. reflexivity. Qed.
