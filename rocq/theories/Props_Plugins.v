(** Properties of glob patterns and of the two stock plugins
    (C36, C62-C64, C66, C67). *)
From Verif Require Import Base Num NumFacts Env Glob Metrics StrFacts TimerFacts XQFacts B64 OrderFacts Demo
  DistinctFacts DistinctMore GlobFacts SliConfig SliFacts.
From Coq Require Import QArith Qcanon.
Open Scope Z_scope.

(** C36.  [describes pat s] is the declarative reading of a pattern; [proper pat]
    says that every range inside a set is the right way round. *)
Theorem C36_glob : forall name pat,
  (proper pat -> exists b, fnmatch name pat = Ok b /\ (b = true <-> describes pat name)) /\
  (~ proper pat -> fnmatch name pat = Exn ReError).
Proof. exact fnmatch_spec. Qed.
Print Assumptions C36_glob.
Theorem C36_no_bracket_is_proper : forall pat, ~ In "["%char pat -> proper pat.
Proof. exact plain_proper. Qed.
Print Assumptions C36_no_bracket_is_proper.
Theorem C36_literal : forall pat name, Forall (fun c => ~ special c) pat -> (describes pat name <-> name = pat).
Proof. exact literal_describes. Qed.
Print Assumptions C36_literal.
Example C36_example :
  describes (B "a*[!0-9].?z") (B "abc.7x.yz") /\ ~ proper (B "a[z-a]") /\ proper (B "[]!a-z-") /\
  fnmatch (B "[]") (B "[]") = Ok true.
Proof.
  assert (Hp : proper (B "a*[!0-9].?z")).
  { destruct (fnmatch_spec (B "abc.7x.yz") (B "a*[!0-9].?z")) as [_ H].
    apply (p_char _ "a"%char); [discriminate|]. apply (p_char _ "*"%char); [discriminate|].
    apply (p_set _ true (B "0-9") (B ".?z")).
    - apply (br_neg (B "0-9") (B ".?z")). exists "0"%char, (B "-9"). split; [reflexivity|]. rewrite <- has_In. discriminate.
    - apply (ps_range "0" "9"); [vm_compute; discriminate|constructor].
    - apply plain_proper. rewrite <- has_In. discriminate. }
  split; [|split; [|split]].
  - destruct (proj1 (fnmatch_spec (B "abc.7x.yz") (B "a*[!0-9].?z")) Hp) as (b & Hb & Hd).
    apply Hd. vm_compute in Hb. congruence.
  - intros H. destruct (proj1 (fnmatch_spec (B "x") (B "a[z-a]")) H) as (b & Hb & _). vm_compute in Hb. discriminate.
  - pose proof (parse_spec 8 (B "[]!a-z-") ltac:(vm_compute; lia)) as H. vm_compute in H. destruct H as [H _]. exact H.
  - reflexivity.
Qed.

(** C62.  [trailing_zeros n z]: [z] zero bits at the end of [n] (0 for 0). *)
Theorem C62_zeros : forall n, trailing_zeros n (zeros n).
Proof. exact zeros_spec. Qed.
Print Assumptions C62_zeros.
Theorem C62_hash_32_bits : forall table data, (sbox_hash table data < 2 ^ 32)%N.
Proof. exact hash_32bit. Qed.
Print Assumptions C62_hash_32_bits.
Theorem C62_one_bucket_per_hash : forall (NN : Num) nh nb d t item i row,
  well_formed nh nb d -> (0 < nb)%nat -> ds_buckets d !! i = Some row ->
  exists h z, ds_hashes d !! i = Some h /\ trailing_zeros (sbox_hash h item) z /\
    let j := Nat.min (nb - 1) (N.to_nat z) in
    (j < nb)%nat /\ length row = nb /\
    exists row', ds_buckets (distinct_add d t item) !! i = Some row' /\ row' !! j = Some t /\
      forall j', j' <> j -> row' !! j' = row !! j'.
Proof. exact @add_touches. Qed.
Print Assumptions C62_one_bucket_per_hash.
Theorem C62_reachable_are_well_formed : forall (NN : Num) (E : env) nh nb w hist,
  well_formed nh nb (adds hist (fst (distinct_new E nh nb w))).
Proof. intros. apply adds_wf, new_wf. Qed.
Print Assumptions C62_reachable_are_well_formed.
Example C62_example :
  ds_buckets (adds (NN := demo_num) [(Fin (QcZ 5), B "x"); (Fin (QcZ 6), B "b")] (fst (distinct_new demo_env 1 4 world0)))
  = [[Fin (QcZ 0); Fin (QcZ 6); Fin (QcZ 0); Fin (QcZ 5)]].
Proof. vm_compute. reflexivity. Qed.

(** C63.  The history is a list of (time, item) with times not going back;
    [in_window since hist item]: the item occurs after [since].  [NumLe] holds
    of the exact numbers and of binary64 doubles. *)
Theorem C63_only_the_set_matters : forall (NN : Num) (NL : NumLe NN) (E : env) nh nb w
    (h1 h2 : list (Num.num * str)) s1 s2, (0 < nh)%nat -> (0 < nb)%nat ->
  let d0 := fst (distinct_new E nh nb w) in
  nleb n0 s1 = true -> nleb n0 s2 = true -> in_order h1 -> in_order h2 ->
  (forall item, in_window s1 h1 item <-> in_window s2 h2 item) ->
  distinct_count (adds h1 d0) s1 = distinct_count (adds h2 d0) s2.
Proof. exact @estimate_of_set. Qed.
Print Assumptions C63_only_the_set_matters.
Theorem C63_more_items_more_estimate : forall (NN : Num) (NL : NumLe NN) (E : env) nh nb w
    (h1 h2 : list (Num.num * str)) s1 s2, (0 < nh)%nat -> (0 < nb)%nat ->
  let d0 := fst (distinct_new E nh nb w) in
  nleb n0 s1 = true -> nleb n0 s2 = true -> in_order h1 -> in_order h2 ->
  (forall item, in_window s1 h1 item -> in_window s2 h2 item) ->
  exists c1 c2, distinct_count (adds h1 d0) s1 = Ok c1 /\ distinct_count (adds h2 d0) s2 = Ok c2 /\ 1 <= c1 <= c2.
Proof. exact @estimate_monotone. Qed.
Print Assumptions C63_more_items_more_estimate.
Theorem C63_doubles : NumLe B64.
Proof. exact B64_le. Qed.
Print Assumptions C63_doubles.
(** a reporter read at least a day after time zero *)
Theorem C63_windows_nest : forall sq (E : env (NN := XQ sq)) name prefix w0 marks w ts q,
  Forall (fun m => exists q', e_clock E (w_clk (fst m)) = Fin q') marks ->
  in_order (NN := XQ sq) (times E marks) ->
  e_clock E (w_clk w) = Fin q -> (QcZ 86400 <= q)%Qc ->
  exists c1 c2 c3 c4,
    fst (dmetric_flush E (mark_all E marks (fst (dmetric_new E name prefix w0))) ts w) =
      Ok [DP (dotted prefix ++ name ++ B ".count") (VI c4) ts; DP (dotted prefix ++ name ++ B ".count_1day") (VI c3) ts;
          DP (dotted prefix ++ name ++ B ".count_1hour") (VI c2) ts; DP (dotted prefix ++ name ++ B ".count_1min") (VI c1) ts] /\
    1 <= c1 <= c2 /\ c2 <= c3 <= c4.
Proof. exact reporter_windows. Qed.
Print Assumptions C63_windows_nest.
(** its hypotheses met: marks at 100000, 103000 and 186350 seconds, read 50 seconds after the last *)
Example C63_windows_case :
  let E : env (NN := demo_num) :=
    @Env demo_num (fun n => Fin (QcZ (nth n [100000; 103000; 186350; 186400] 0))) (e_randint demo_env) (e_table demo_env)
      (fun _ l => l) (fun _ _ => Permutation_refl _) in
  let at_ n := World n 0 0 0 in
  let marks := [(at_ 0%nat, B "ann"); (at_ 1%nat, B "bob"); (at_ 2%nat, B "cat")] in
  Forall (fun m => exists q', e_clock E (w_clk (fst m)) = Fin q') marks /\
  in_order (NN := demo_num) (times E marks) /\
  e_clock E (w_clk (at_ 3%nat)) = Fin (QcZ 186400) /\ (QcZ 86400 <= QcZ 186400)%Qc.
Proof.
  cbv zeta. split; [|split; [|split]].
  - repeat constructor; eexists; reflexivity.
  - unfold in_order, times. cbn [map]. repeat constructor; vm_compute; reflexivity.
  - reflexivity.
  - vm_compute. discriminate.
Qed.
(** an hour or a day before time zero every bucket counts as hit: with the clock
    at 1000 seconds an unused metric reports over five billion distinct items *)
Theorem C63_windows_nest_early_refuted : exists (E : env (NN := demo_num)) w ts c,
  In (DP (B "users.count_1day") (VI c) ts)
     (match fst (dmetric_flush E (fst (dmetric_new E (B "users") (B "") world0)) ts w) with Ok l => l | Exn _ => [] end) /\
  5000000000 < c.
Proof.
  exists demo_env, world0, 7, 5552568545. split; [|reflexivity].
  assert (H : (match fst (dmetric_flush demo_env (fst (dmetric_new demo_env (B "users") (B "") world0)) 7 world0) with
               | Ok [_; DP n (VI c) t; _; _] => str_eqb n (B "users.count_1day") && (c =? 5552568545) && (t =? 7) | _ => false end) = true) by (vm_compute; reflexivity).
  destruct (fst (dmetric_flush demo_env (fst (dmetric_new demo_env (B "users") (B "") world0)) 7 world0)) as [l|]; [|discriminate H].
  destruct l as [|x [|[n [c|] t] [|y [|z [|]]]]]; try discriminate H. apply andb_prop in H as [H Ht]. apply andb_prop in H as [Hn Hc].
  apply str_eqb_eq in Hn. apply Z.eqb_eq in Hc, Ht. subst. right. left. reflexivity.
Qed.
Print Assumptions C63_windows_nest_early_refuted.
Example C63_example :
  let d0 := fst (distinct_new demo_env 3 8 world0) in
  let one t (s : string) : @Num.num demo_num * str := (Fin (QcZ t), B s) in
  distinct_count (NN := demo_num) (adds (NN := demo_num) [one 5 "a"%string; one 6 "b"%string; one 6 "c"%string; one 7 "b"%string] d0) (Fin (QcZ 5)) =
  distinct_count (NN := demo_num) (adds (NN := demo_num) [one 6 "c"%string; one 6 "b"%string] d0) (Fin (QcZ 1)).
Proof. vm_compute. reflexivity. Qed.

(** C64 *)
Theorem C64_empty_window_is_one : forall (NN : Num) (NL : NumLe NN) (E : env) nh nb w (h : list (Num.num * str)) s,
  (0 < nh)%nat -> (0 < nb)%nat ->
  let d0 := fst (distinct_new E nh nb w) in
  nleb n0 s = true -> in_order h -> (forall item, ~ in_window s h item) ->
  distinct_count (adds h d0) s = Ok 1.
Proof. exact @estimate_empty. Qed.
Print Assumptions C64_empty_window_is_one.
Theorem C64_at_least_one : forall (NN : Num) (E : env) nh nb w (h : list (Num.num * str)) s, (0 < nh)%nat ->
  exists c, distinct_count (adds h (fst (distinct_new E nh nb w))) s = Ok c /\ 1 <= c.
Proof. exact @estimate_at_least_one. Qed.
Print Assumptions C64_at_least_one.
Example C64_example :
  distinct_count (NN := demo_num) (fst (distinct_new demo_env 32 32 world0)) (Fin (QcZ 0)) = Ok 1.
Proof. vm_compute. reflexivity. Qed.

(** C66.  [reads fields s]: what a list of fields means as a sample;
    [periods ops] splits a history at its flushes; [reported] compares a flush
    with the samples of its period: one count per condition (any order), then
    the number of samples and the number of errors. *)
Theorem C66_sli_history : forall (NN : Num) (E : env) name conds ops w,
  let '(s', outs, _) := srun E ops (sli_new name conds) w in
  Forall2 (reported name conds) (fst (periods ops)) outs /\
  tallied name conds (samples (snd (periods ops))) s'.
Proof. exact @sli_history. Qed.
Print Assumptions C66_sli_history.
Theorem C66_samples : forall (NN : Num) fields s, sample_of fields = Some s <-> reads fields s.
Proof. exact @sample_of_iff. Qed.
Print Assumptions C66_samples.
Theorem C66_rejected_samples_leave_no_trace : forall (NN : Num) name conds l s fields,
  tallied name conds l s -> (forall x, ~ reads fields x) ->
  fst (sli_process s fields) = s /\ snd (sli_process s fields) = Exn (match fields with [] => IndexError | _ => ValueError end).
Proof.
  intros NN name conds l s fields Ht Hno. pose proof (tallied_process name conds l s fields Ht) as H.
  destruct (sample_of fields) as [x|] eqn:E; [|exact H]. exfalso. apply (Hno x). apply sample_of_iff. exact E.
Qed.
Print Assumptions C66_rejected_samples_leave_no_trace.
Theorem C66_counts_bounded : forall (NN : Num) c (l : list sample),
  (length (passing c l) + length (errors l) <= length l)%nat.
Proof. exact @passing_le. Qed.
Print Assumptions C66_counts_bounded.
Theorem C66_conditions : forall sq v s lo hi x z,
  (cond_holds (NN := XQ sq) (Below (NN := XQ sq) (Fin v) (Fin s)) (Fin x) (Fin z) = true <-> (x < v + s * z)%Qc) /\
  (cond_holds (NN := XQ sq) (Above (NN := XQ sq) (Fin v) (Fin s)) (Fin x) (Fin z) = true <-> (v + s * z < x)%Qc) /\
  (cond_holds (NN := XQ sq) (Between (NN := XQ sq) (Fin lo) (Fin hi)) (Fin x) (Fin z) = true <-> (lo < x /\ x < hi)%Qc).
Proof. intros. split; [apply below_exact|]. split; [apply above_exact|apply between_exact]. Qed.
Print Assumptions C66_conditions.
Definition plain (d : dp (NN := demo_num)) : str * option Z * Z :=
  (dp_name d, match dp_value d with VI z => Some z | VF _ => None end, dp_ts d).
Example C66_example :
  let conds := <[B "slow" := Above (NN := demo_num) (Fin (QcZ 10)) (Fin (QcZ 2))]> ∅ in
  map (map plain) (snd (fst (srun demo_env [SProc [B "13"; B "sli"]; SProc [B "error"; B "sli"]; SProc [B "13"; B "sli"; B "4"]; SProc [B "x"; B "sli"]; SFlush 9; SFlush 10]
         (sli_new (B "api") conds) world0))) =
  [[(B "api.count_slow", Some 1, 9); (B "api.count", Some 3, 9); (B "api.error", Some 1, 9)];
   [(B "api.count_slow", Some 0, 10); (B "api.count", Some 0, 10); (B "api.error", Some 0, 10)]].
Proof. vm_compute. reflexivity. Qed.

(** C67.  [rule line head label e] is the form of a line and what it means;
    [last_rule lines head label e]: the last line for that head and label
    means [e]; [applies lines path label c]: it is so for a head describing the
    path. *)
Theorem C67_accepted_texts : forall (NN : Num) cfg text,
  snd (sli_configure cfg (Some text)) = Ok tt <-> Forall good (split_on c_nl (strip text)).
Proof. exact @configure_ok_iff. Qed.
Print Assumptions C67_accepted_texts.
Theorem C67_configured_metric : forall (NN : Num) text, Forall good (split_on c_nl (strip text)) ->
  exists cfg, sli_configure ∅ (Some text) = (cfg, Ok tt) /\
    forall (E : env) ks prefix name w, ks ≡ₚ (map_to_list cfg).*1 ->
    exists cs, build_metric E (sli_factory cfg ks) prefix name w = (Ok (PSli (sli_new (sli_path prefix name) cs)), w) /\
      forall label,
        (forall c, cs !! label = Some c -> applies (split_on c_nl (strip text)) (sli_path prefix name) label c) /\
        ((exists c, applies (split_on c_nl (strip text)) (sli_path prefix name) label c) -> cs !! label <> None).
Proof. exact @configured_metric. Qed.
Print Assumptions C67_configured_metric.
Theorem C67_last_rule_wins : forall (NN : Num) lines, Forall good lines -> forall cfg,
  exists cfg', configure_rules cfg lines = (cfg', Ok tt) /\
    forall h l, (forall e, last_rule lines h l e -> entry cfg' h l = Some e) /\
                ((forall e, ~ last_rule lines h l e) -> entry cfg' h l = entry cfg h l).
Proof. exact @configure_rules_good. Qed.
Print Assumptions C67_last_rule_wins.
(** the first bad line raises; the lines before it stay installed *)
Theorem C67_bad_line : forall (NN : Num) before line after cfg, Forall good before -> ~ good line ->
  exists cfg1 cfg2 e, configure_rules cfg before = (cfg1, Ok tt) /\
    configure_rules cfg (before ++ line :: after) = (cfg2, Exn e) /\ (e = TypeError \/ e = ValueError) /\
    ((forall head label cname tl, ~ rule_text line head label cname tl) -> e = TypeError) /\
    (forall h l, entry cfg2 h l = entry cfg1 h l).
Proof. exact @configure_rules_bad. Qed.
Print Assumptions C67_bad_line.
(** the claim that only conditions can be installed is false: the condition name
    "metric" reaches the factory's own method *)
Theorem C67_only_conditions_refuted : exists text head label,
  snd (sli_configure (NN := demo_num) ∅ (Some text)) = Ok tt /\
  entry (fst (sli_configure (NN := demo_num) ∅ (Some text))) head label = Some (CObj (NN := demo_num)).
Proof.
  exists (B "a => b IF metric x y"), (B "a"), (B "b"). split; [vm_compute; reflexivity|].
  assert (H : (match entry (fst (sli_configure (NN := demo_num) ∅ (Some (B "a => b IF metric x y")))) (B "a") (B "b") with Some CObj => true | _ => false end) = true)
    by (vm_compute; reflexivity).
  destruct (entry _ (B "a") (B "b")) as [[c|]|]; [discriminate H|reflexivity|discriminate H].
Qed.
Print Assumptions C67_only_conditions_refuted.
(** a condition as a name and two numbers *)
Definition shown (e : option (centry (NN := demo_num))) : option (str * xq * xq) :=
  match e with
  | Some (CCond (Below a b)) => Some (B "below", a, b)
  | Some (CCond (Above a b)) => Some (B "above", a, b)
  | Some (CCond (Between a b)) => Some (B "between", a, b)
  | _ => None
  end.
Example C67_example :
  let cfg := fst (sli_configure (NN := demo_num) ∅ (Some (B "api.* => slow IF above 5 0.5" ++ [c_nl] ++ B "api.x => ok IF between 1 2" ++ [c_nl] ++ B "api.* => slow IF below 7"))) in
  shown (entry cfg (B "api.*") (B "slow")) = Some (B "below", Fin (QcZ 7), Fin (QcZ 0)) /\
  shown (entry cfg (B "api.x") (B "ok")) = Some (B "between", Fin (QcZ 1), Fin (QcZ 2)) /\
  snd (sli_configure (NN := demo_num) ∅ (Some (B "api => x IF above"))) = Exn ValueError /\
  snd (sli_configure (NN := demo_num) ∅ (Some (B "api -> x IF above 3"))) = Exn TypeError.
Proof. vm_compute. auto. Qed.
