(** The moving average. *)
From Verif Require Import Base Num NumFacts Env Stats.
From Coq Require Import QArith Qcanon Lqa.
Open Scope Z_scope.

(** ** Specification of the moving average *)
Inductive eop := EUpdate (n : Qc) | ETick.

(** updates since the last tick, and the totals of the completed intervals, latest first *)
Fixpoint intervals (ops : list eop) (cur : Qc) (done : list Qc) : Qc * list Qc :=
  match ops with
  | [] => (cur, done)
  | EUpdate n :: ops' => intervals ops' (cur + n)%Qc done
  | ETick :: ops' => intervals ops' (QcZ 0) (cur :: done)
  end.
(** exponentially weighted average of the rates [r], latest first: the latest
    weighs [a], the one before [a (1-a)], ..., the first what is left *)
Fixpoint weighted (a : Qc) (r : list Qc) : Qc :=
  match r with
  | [] => QcZ 0
  | [x] => x
  | x :: r' => (a * x + (1 - a) * weighted a r')%Qc
  end.

Section ewma.
Context (sq : Qc -> Qc).
Definition erun (ops : list eop) (e : ewma (NN := XQ sq)) : ewma (NN := XQ sq) :=
  fold_left (fun e o => match o with
                        | EUpdate n => ewma_update (NN := XQ sq) e (Fin n)
                        | ETick => fst (ewma_tick (NN := XQ sq) e)
                        end) ops e.

Lemma erun_spec alpha interval ops : interval <> QcZ 0 -> forall (e : ewma (NN := XQ sq)) cur done,
  ew_alpha e = Fin alpha -> ew_interval e = Fin interval -> ew_uncounted e = Fin cur ->
  ew_init e = negb (match done with [] => true | _ => false end) ->
  ew_rate e = Fin (weighted alpha (map (fun c => c / interval)%Qc done)) ->
  let '(cur', done') := intervals ops cur done in
  ew_alpha (erun ops e) = Fin alpha /\ ew_interval (erun ops e) = Fin interval /\
  ew_uncounted (erun ops e) = Fin cur' /\
  ew_init (erun ops e) = negb (match done' with [] => true | _ => false end) /\
  ew_rate (erun ops e) = Fin (weighted alpha (map (fun c => c / interval)%Qc done')).
Proof.
  intros Hi. induction ops as [|o ops IH]; intros e cur done Ha Hn Hu Hin Hr.
  - cbn. auto.
  - destruct o as [n|]; cbn [intervals erun fold_left].
    + apply IH; unfold ewma_update; cbn [ew_alpha ew_interval ew_uncounted ew_init ew_rate]; auto. rewrite Hu. reflexivity.
    + assert (Hd : pydiv (NN := XQ sq) (ew_uncounted e) (ew_interval e) = Ok (Fin (cur / interval)%Qc)).
      { unfold pydiv. rewrite Hu, Hn. cbn. destruct (Qc_eqb interval (QcZ 0)) eqn:E; [apply Qc_eqb_eq in E; contradiction|reflexivity]. }
      unfold ewma_tick. rewrite Hd. cbn [fst].
      apply IH; cbn [ew_alpha ew_interval ew_uncounted ew_init ew_rate]; auto.
      rewrite Hin, Hr, Ha. destruct done as [|d done]; [reflexivity|]. cbn [negb map weighted].
      cbn [nadd nmul nsub XQ xadd xmul xsub xopp]. f_equal.
      set (w := match map _ done with [] => _ | _ :: _ => _ end). clearbody w. ring.
Qed.
(** a new average *)
Lemma ewma_history alpha interval ops : interval <> QcZ 0 ->
  let '(cur, done) := intervals ops (QcZ 0) [] in
  ew_rate (erun ops (ewma_new (NN := XQ sq) (Fin alpha) (Fin interval))) =
    Fin (weighted alpha (map (fun c => c / interval)%Qc done)) /\
  ew_uncounted (erun ops (ewma_new (NN := XQ sq) (Fin alpha) (Fin interval))) = Fin cur.
Proof.
  intros Hi. pose proof (erun_spec alpha interval ops Hi (ewma_new (NN := XQ sq) (Fin alpha) (Fin interval)) (QcZ 0) []
    eq_refl eq_refl eq_refl eq_refl eq_refl) as H.
  destruct (intervals ops (QcZ 0) []) as [cur done]. destruct H as (_ & _ & H1 & _ & H2). auto.
Qed.
End ewma.

Lemma weighted_bounds a lo hi r : (0 <= a)%Qc -> (a <= 1)%Qc -> r <> [] ->
  Forall (fun x => lo <= x /\ x <= hi)%Qc r -> (lo <= weighted a r /\ weighted a r <= hi)%Qc.
Proof.
  intros H0 H1 Hne Hall. induction Hall as [|x r Hx Hall IH]; [contradiction|].
  destruct r as [|y r]; [exact Hx|]. specialize (IH ltac:(discriminate)).
  change (weighted a (x :: y :: r)) with (a * x + (1 - a) * weighted a (y :: r))%Qc.
  set (w := weighted a (y :: r)) in *. clearbody w. destruct Hx, IH. split; qc_nra.
Qed.

