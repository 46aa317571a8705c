(** Properties of the statistics objects (C54-C61).  Statements about rationals
    are over the exact numbers [XQ sq], [sq] being the square root used; those
    that need exp are over the reals. *)
From Verif Require Import Base Bisect Num NumFacts Env Stats TimerFacts XQFacts TimerXQ Demo
  SampleFacts EwmaFacts VarianceFacts PercFacts BinFacts StatsDerived RealNum DecayFacts UniformFacts.
From Coq Require Import QArith Qcanon Reals Lra.
Open Scope Z_scope.

(** C54.  [intervals ops 0 []] is what was counted since the last tick and the
    totals of the completed intervals, latest first; [weighted a] the
    exponentially weighted average of a list, latest first. *)
Theorem C54_moving_average : forall sq alpha interval ops, interval <> QcZ 0 ->
  let '(cur, done) := intervals ops (QcZ 0) [] in
  ew_rate (erun sq ops (ewma_new (NN := XQ sq) (Fin alpha) (Fin interval))) =
    Fin (weighted alpha (map (fun c => c / interval)%Qc done)) /\
  ew_uncounted (erun sq ops (ewma_new (NN := XQ sq) (Fin alpha) (Fin interval))) = Fin cur.
Proof. exact ewma_history. Qed.
Print Assumptions C54_moving_average.
Theorem C54_between_the_interval_rates : forall sq alpha interval ops lo hi,
  interval <> QcZ 0 -> (0 <= alpha)%Qc -> (alpha <= 1)%Qc ->
  snd (intervals ops (QcZ 0) []) <> [] ->
  Forall (fun c => lo <= c / interval /\ c / interval <= hi)%Qc (snd (intervals ops (QcZ 0) [])) ->
  exists r, ew_rate (erun sq ops (ewma_new (NN := XQ sq) (Fin alpha) (Fin interval))) = Fin r /\ (lo <= r /\ r <= hi)%Qc.
Proof. exact ewma_between. Qed.
Print Assumptions C54_between_the_interval_rates.
Theorem C54_updates_add_up : forall ns ops,
  intervals (map EUpdate ns ++ ETick :: ops) (QcZ 0) [] = intervals ops (QcZ 0) [qsum ns].
Proof. exact intervals_updates. Qed.
Print Assumptions C54_updates_add_up.
Example C54_example :
  ew_rate (erun (fun q => q) [EUpdate (QcZ 3); EUpdate (QcZ 7); ETick; EUpdate (QcZ 20); ETick; EUpdate (QcZ 1)]
             (ewma_new (NN := demo_num) (Fin (Q2Qc (1 # 2))) (Fin (QcZ 5)))) = Fin (QcZ 3).
Proof. vm_compute. reflexivity. Qed.

(** C55.  [offered ops] are the values given since the last clear; [picked l k]
    says [k] are different occurrences of elements of [l]. *)
Theorem C55_reservoir : forall (NN : Num) (E : env) size ops w,
  let kept := us_get (fst (urun E ops (us_new size) w)) in
  length kept = Nat.min (length (offered ops)) size /\ picked (offered ops) kept /\
  ((length (offered ops) <= size)%nat -> kept = offered ops).
Proof. exact @reservoir_history. Qed.
Print Assumptions C55_reservoir.
Example C55_example :
  us_get (fst (urun demo_env (map (UUpdate (NN := demo_num)) (fins (map QcZ [10; 20; 30; 40; 50]))) (us_new 3) world0))
  = [Fin (QcZ 10); Fin (QcZ 40); Fin (QcZ 50)].
Proof. vm_compute. reflexivity. Qed.

(** C56.  [priority alpha L o] is exp(alpha * (time of o - L)) / random number of
    o; [top alpha L all kept]: [kept] is part of [all] and nothing left out has
    a higher priority than anything kept.  The landmark does not matter. *)
Theorem C56_decaying_reservoir : forall alpha size os t1 t2, 0 < size -> Forall (fun o => of_rnd o <> 0%R) os ->
  exists s kept, offer_all alpha size os (es_clear (NN := RN) t1 t2) = (s, Ok tt) /\
    es_get (NN := RN) s ≡ₚ map of_value kept /\ (forall L, top alpha L os kept) /\
    Z.of_nat (length kept) = Z.min (Z.of_nat (length os)) size /\
    es_size (NN := RN) size s = Z.of_nat (length (es_get (NN := RN) s)) /\
    StronglySorted pair_le (es_values s).
Proof. exact decaying. Qed.
Print Assumptions C56_decaying_reservoir.
Theorem C56_random_zero : forall alpha size s v ts,
  snd (es_update (NN := RN) exp alpha size s v ts 0%R) = Exn ZeroDivisionError.
Proof. exact zero_random. Qed.
Print Assumptions C56_random_zero.
Example C56_example : exists os, Forall (fun o => of_rnd o <> 0%R) os /\ length os = 3%nat.
Proof.
  exists [Offer 5 0 (1/2); Offer 7 1000 (1/3); Offer 6 2000 1]%R. split; [|reflexivity].
  repeat constructor; cbn; lra.
Qed.

(** C57.  [recorded ops] are the values since the last clear. *)
Theorem C57_variance : forall sq (E : env (NN := XQ sq)) ops s w qs,
  recorded (NN := XQ sq) ops = fins qs -> never_minus_one qs ->
  h_variance (fst (hrun (NN := XQ sq) E ops (h_new s) w)) = Fin (sample_variance qs) /\
  h_mean (fst (hrun (NN := XQ sq) E ops (h_new s) w)) = Fin (match qs with [] => QcZ 0 | _ => average qs end).
Proof. exact variance_exact. Qed.
Print Assumptions C57_variance.
Theorem C57_timers_never_hit_the_sentinel : forall qs, Forall (fun x => 0 <= x)%Qc qs -> never_minus_one qs.
Proof. exact nonneg_never. Qed.
Print Assumptions C57_timers_never_hit_the_sentinel.
(** the claim without the side condition is false *)
Theorem C57_negative_values_refuted : forall sq (E : env (NN := XQ sq)) s w,
  h_variance (fst (hrun (NN := XQ sq) E [HUpdate (NN := XQ sq) (Fin (QcZ (-1))); HUpdate (NN := XQ sq) (Fin (QcZ 1))] (h_new s) w)) = Fin (QcZ 0) /\
  sample_variance [QcZ (-1); QcZ 1] = QcZ 2.
Proof. exact variance_wrong. Qed.
Print Assumptions C57_negative_values_refuted.
Definition demo_hops : list (hop (NN := demo_num)) :=
  [HUpdate (NN := demo_num) (Fin (QcZ 9)); HClear] ++ map (HUpdate (NN := demo_num)) (fins (map QcZ [2; 4; 4; 4; 5; 5; 7; 9])).
Example C57_example : recorded (NN := demo_num) demo_hops = fins (map QcZ [2; 4; 4; 4; 5; 5; 7; 9]) /\
  h_variance (fst (hrun (NN := demo_num) demo_env demo_hops (h_new (us_new 100)) world0)) = Fin (Q2Qc (32 # 7)).
Proof. split; vm_compute; reflexivity. Qed.

(** C58.  [nok] excludes NaN. *)
Theorem C58_extrema : forall (NN : Num) (E : env) (NO : NumOrd NN) ops s w, Forall nok (recorded ops) ->
  (recorded ops <> [] -> greatest (recorded ops) (h_get_max (fst (hrun E ops (h_new s) w))) /\
                         least (recorded ops) (h_get_min (fst (hrun E ops (h_new s) w)))) /\
  (recorded ops = [] -> h_get_max (fst (hrun E ops (h_new s) w)) = n0 /\ h_get_min (fst (hrun E ops (h_new s) w)) = n0).
Proof. exact @hist_extrema. Qed.
Print Assumptions C58_extrema.
Example C58_example :
  let h := fst (hrun (NN := demo_num) demo_env (map (HUpdate (NN := demo_num)) (fins (map QcZ [-5; -2; -9]))) (h_new (us_new 2)) world0) in
  h_get_max h = Fin (QcZ (-2)) /\ h_get_min h = Fin (QcZ (-9)).
Proof. split; vm_compute; reflexivity. Qed.

(** C59.  [at_position l x r]: [r] is the linear interpolation of the ascending
    list [l] at the 1-based position [x], clamped at both ends. *)
Theorem C59_percentiles : forall sq (E : env (NN := XQ sq)) ops size w qs ps, (0 < size)%nat ->
  recorded (NN := XQ sq) ops = fins qs ->
  let h := fst (hrun (NN := XQ sq) E ops (h_new (us_new size)) w) in
  (qs = [] -> h_percentiles h (fins ps) = Ok (fins (map (fun _ => QcZ 0) ps))) /\
  (qs <> [] -> exists kept l rs, us_get (h_sample h) = fins kept /\ kept <> [] /\ l ≡ₚ kept /\ rising l /\
     h_percentiles h (fins ps) = Ok (fins rs) /\
     Forall2 (fun p r => at_position l (p * QcZ (Z.of_nat (length kept) + 1))%Qc r) ps rs).
Proof. exact percentiles_exact. Qed.
Print Assumptions C59_percentiles.
Theorem C59_bounded_and_monotone : forall sq (E : env (NN := XQ sq)) ops size w qs ps, (0 < size)%nat ->
  recorded (NN := XQ sq) ops = fins qs -> qs <> [] ->
  let h := fst (hrun (NN := XQ sq) E ops (h_new (us_new size)) w) in
  exists kept lo hi rs, us_get (h_sample h) = fins kept /\ lowest kept lo /\ highest kept hi /\
    h_percentiles h (fins ps) = Ok (fins rs) /\ Forall (fun r => lo <= r /\ r <= hi)%Qc rs /\
    forall i j p p' r r', ps !! i = Some p -> ps !! j = Some p' -> rs !! i = Some r -> rs !! j = Some r' ->
      (p <= p')%Qc -> (r <= r')%Qc.
Proof. exact percentiles_between. Qed.
Print Assumptions C59_bounded_and_monotone.
Example C59_example :
  h_percentiles (fst (hrun (NN := demo_num) demo_env demo_hops (h_new (us_new 100)) world0)) (fins [Q2Qc (1 # 2); Q2Qc (3 # 4); QcZ 1])
  = Ok (fins [Q2Qc (9 # 2); Q2Qc (13 # 2); QcZ 9]).
Proof. vm_compute. reflexivity. Qed.

(** C60.  [1 + log2_up n] is ceil(1 + log2 n); [in_bin lo hi n j v]: [v] falls in
    the [j]-th of [n] equal parts of [lo, hi], the last one including [hi]. *)
Theorem C60_histogram : forall sq (E : env (NN := XQ sq)) ops size w qs, (0 < size)%nat ->
  recorded (NN := XQ sq) ops = fins qs ->
  let h := fst (hrun (NN := XQ sq) E ops (h_new (us_new size)) w) in
  (qs = [] -> h_histogram h = Ok (counts (replicate 10 0))) /\
  (qs <> [] -> exists kept lo hi, us_get (h_sample h) = fins kept /\ kept <> [] /\ lowest kept lo /\ highest kept hi /\
    (lo = hi -> h_histogram h = Exn ZeroDivisionError) /\
    (lo <> hi -> exists zs n, h_histogram h = Ok (counts zs) /\ n = 1 + Z.log2_up (Z.of_nat (length qs)) /\
       Z.of_nat (length zs) = n /\ zsum zs = Z.of_nat (length kept) /\
       forall j, 0 <= j < n -> zs !! Z.to_nat j = Some (Z.of_nat (length (filter (fun v => in_bin lo hi n j v = true) kept))))).
Proof. exact histogram_exact. Qed.
Print Assumptions C60_histogram.
Example C60_example :
  h_histogram (fst (hrun (NN := demo_num) demo_env demo_hops (h_new (us_new 100)) world0)) = Ok (counts [1; 5; 1; 1]) /\
  h_histogram (fst (hrun (NN := demo_num) demo_env [HUpdate (NN := demo_num) (Fin (QcZ 3))] (h_new (us_new 100)) world0)) = Exn ZeroDivisionError.
Proof. split; vm_compute; reflexivity. Qed.

(** C61 *)
Theorem C61_report_always_fails : forall (NN : Num) (h : hist), exists e, h_report h = Exn e.
Proof. exact @report_fails. Qed.
Print Assumptions C61_report_always_fails.
Theorem C61_report_is_a_type_error : forall sq (E : env (NN := XQ sq)) ops size w qs, (0 < size)%nat ->
  recorded (NN := XQ sq) ops = fins qs -> never_minus_one qs ->
  h_report (fst (hrun (NN := XQ sq) E ops (h_new (us_new size)) w)) = Exn TypeError.
Proof. exact report_type_error. Qed.
Print Assumptions C61_report_is_a_type_error.
Example C61_example :
  h_report (fst (hrun (NN := demo_num) demo_env demo_hops (h_new (us_new 100)) world0)) = Exn TypeError.
Proof. vm_compute. reflexivity. Qed.

(** C86.  [outcomes m k] are all lists of k draws, the i-th in 0..m+i (next two
    theorems); [times_kept] counts those for which the value is in the sample.
    Simplification: python draws randint(1, maxint) and takes the remainder
    modulo the count; the remainders are here taken as equally likely. *)
Theorem C86_uniform : forall (NN : Num) (ED : EqDecision Num.num) (E : env) size (vs : list Num.num) v,
  NoDup vs -> v ∈ vs -> (0 < size <= length vs)%nat ->
  (times_kept ED E size vs v * length vs = size * length (outcomes size (length vs - size)))%nat.
Proof. exact @uniform. Qed.
Print Assumptions C86_uniform.
Theorem C86_outcomes : forall m k ds, ds ∈ outcomes m k <->
  length ds = k /\ forall i d, ds !! i = Some d -> 0 <= d < Z.of_nat (m + S i).
Proof. exact outcomes_spec. Qed.
Print Assumptions C86_outcomes.
Theorem C86_outcomes_once : forall m k, NoDup (outcomes m k) /\ length (outcomes m k) <> 0%nat.
Proof. exact outcomes_distinct. Qed.
Print Assumptions C86_outcomes_once.
Example C86_example : times_kept (NN := demo_num) (xq_dec _) demo_env 2 (fins (map QcZ [10; 20; 30; 40])) (Fin (QcZ 20)) = 6%nat /\
  length (outcomes 2 2) = 12%nat.
Proof. split; vm_compute; reflexivity. Qed.
