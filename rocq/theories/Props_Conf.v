(** Properties of the configurable and the logging processor (C25-C30, C85).
    [creached E prefix internal plugins es] is the state after any schedule [es]
    of lines received and of flushes started, advanced and abandoned;
    [last_value t key ls v]: [v] is the number in the last of the lines [ls]
    that reads KEY:[v]|t. *)
From Verif Require Import Base StrFacts Num NumFacts Env Stats Metrics Gen Processor Configurable LineSpec ProcSpec ProcFacts
  FloatFacts ReceiveFacts Sched CSched ConfFacts ConfFlush ConfInv ConfXQ ConfDerived LogFacts XQFacts SampleFacts VarianceFacts PercFacts BinFacts StatsDerived Demo.
From Coq Require Import QArith Qcanon.
Open Scope Z_scope.

(** C25 *)
Theorem C25_last_value : forall (NN : Num) E prefix internal plugins es i p s' l o ts,
  let s := creached E prefix internal plugins es in
  ntrunc (e_clock E (w_clk (p_w s))) = Ok ts ->
  (forall key v, last_value (B "c") key (lines es) v -> exists z, ntrunc v = Ok z) ->
  grun (cflush E prefix internal plugins i p) s = (s', l, o) ->
  exists zs rest, NoDup (zs.*1) /\
    (forall key z, (key, z) ∈ zs <-> exists v, last_value (B "c") key (lines es) v /\ ntrunc v = Ok z) /\
    l = map (fun '(k, z) => DP (under prefix k ++ B ".count") (VI z) ts) zs ++ rest.
Proof. exact @counters_reported. Qed.
Print Assumptions C25_last_value.
Theorem C25_truncation : forall sq q, ntrunc (Num := XQ sq) (Fin q) = Ok (Qctrunc q) /\ towards_zero q (Qctrunc q).
Proof. exact (fun sq q => conj eq_refl (trunc_spec q)). Qed.
Print Assumptions C25_truncation.
(** the numbers of two integers that truncate [q] coincide *)
Theorem C25_truncation_unique : forall q z z', towards_zero q z -> towards_zero q z' -> z = z'.
Proof. exact towards_zero_unique. Qed.
Print Assumptions C25_truncation_unique.

Definition conf_lines : list str :=
  [B "a:5|c"; B "t:4|ms"; B "a:-7.5|c|@0.1"; B "gg:1|g"; B "gg:3|g"; B "b/c:9|c"; B "t:6|ms"; B "noise"].
Definition conf_events : list event := map Recv conf_lines.
Definition conf_state := creached (NN := demo_num) demo_env (B "pre") [] [] conf_events.
(** the hypotheses of C25, C27 and C28 are met by a concrete history *)
Definition shown (d : dp (NN := demo_num)) : str * option Z := (dp_name d, match dp_value d with VI z => Some z | VF _ => None end).
Example C25_case :
  (exists v, last_value (NN := demo_num) (B "c") (B "a") (lines conf_events) v /\ ntrunc v = Ok (-7)) /\
  (let '(_, l, o) := grun (cflush (NN := demo_num) demo_env (B "pre") [] [] 10000 90) conf_state in
   (map shown (take 2 l), o, length l) = ([(B "pre.a.count", Some (-7)); (B "pre.b-c.count", Some 9)], None, 28%nat)).
Proof.
  split.
  - apply last_value_by. vm_compute. reflexivity.
  - vm_compute. reflexivity.
Qed.

(** C26 *)
Theorem C26_only_counters : forall (NN : Num) E prefix internal plugins es i p ts key v e,
  let s := creached E prefix internal plugins es in
  ntrunc (e_clock E (w_clk (p_w s))) = Ok ts ->
  last_value (B "c") key (lines es) v -> ntrunc v = Exn e ->
  exists w zs key' v' e',
    grun (cflush E prefix internal plugins i p) s =
      (set_w w s, map (fun '(k, z) => DP (under prefix k ++ B ".count") (VI z) ts) zs, Some e') /\
    last_value (B "c") key' (lines es) v' /\ ntrunc v' = Exn e' /\ NoDup (zs.*1) /\
    (forall k z, (k, z) ∈ zs -> exists x, last_value (B "c") k (lines es) x /\ ntrunc x = Ok z).
Proof. exact @bad_counter. Qed.
Print Assumptions C26_only_counters.
Theorem C26_raises_iff : forall sq (E : env (NN := XQ sq)) prefix internal plugins es i p,
  let s := creached E prefix internal plugins es in
  (exists s' l e, grun (cflush E prefix internal plugins i p) s = (s', l, Some e)) <->
  (~ finite (e_clock E (w_clk (p_w s)))) \/
  exists key v, last_value (NN := XQ sq) (B "c") key (lines es) v /\ ~ finite v.
Proof. exact raises_iff. Qed.
Print Assumptions C26_raises_iff.

Example C26_case :
  (exists v, last_value (NN := demo_num) (B "c") (B "a") [B "b:1|c"; B "a:nan|c"; B "t:1|ms"] v /\ ~ finite v) /\
  (let '(_, l, o) := grun (cflush (NN := demo_num) demo_env [] [] [] 10000 90)
      (creached (NN := demo_num) demo_env [] [] [] (map Recv [B "b:1|c"; B "a:nan|c"; B "t:1|ms"])) in
   (map shown l, o) = ([(B "b.count", Some 1)], Some ValueError)).
Proof.
  split; [|vm_compute; reflexivity]. exists (nlit FNan). split; [|intros [q H]; discriminate].
  exists [nlit FNan]. split; [|reflexivity].
  apply picks_miss; [apply view_none; vm_compute; reflexivity|]. apply picks_hit; [apply view_iff; vm_compute; reflexivity|].
  apply picks_miss; [apply view_none; vm_compute; reflexivity|]. constructor.
Qed.

(** C27 *)
Theorem C27_last_value : forall (NN : Num) E prefix internal plugins es i p s' l,
  grun (cflush E prefix internal plugins i p) (creached E prefix internal plugins es) = (s', l, None) ->
  exists ts before vs after,
    ntrunc (e_clock E (w_clk (p_w (creached E prefix internal plugins es)))) = Ok ts /\
    l = before ++ map (fun '(k, v) => DP (under prefix k ++ B ".value") (VF v) ts) vs ++ after /\
    NoDup (vs.*1) /\ (forall key v, (key, v) ∈ vs <-> last_value (B "g") key (lines es) v).
Proof. exact @gauges_reported. Qed.
Print Assumptions C27_last_value.
(** a gauge set twice: one datapoint, the later value *)
Example C27_case :
  (exists v, last_value (NN := demo_num) (B "g") (B "g") [B "g:4|g"; B "a:1|c"; B "g:6|g"] v /\ ntrunc v = Ok 6) /\
  (let '(_, l, o) := grun (cflush (NN := demo_num) demo_env (B "pre") [] [] 10000 90)
      (creached (NN := demo_num) demo_env (B "pre") [] [] (map Recv [B "g:4|g"; B "a:1|c"; B "g:6|g"])) in
   (o, List.filter (str_eqb (B "pre.g.value")) (map dp_name l)) = (None, [B "pre.g.value"])).
Proof.
  split.
  - apply last_value_by. vm_compute. reflexivity.
  - vm_compute. reflexivity.
Qed.

(** C28 *)
Theorem C28_timers : forall sq (E : env (NN := XQ sq)) prefix internal plugins es i p s1 l1 ls i' p' s3 l3 key ds,
  let s := creached E prefix internal plugins es in
  let s2 := creceive_all (NN := XQ sq) E prefix internal plugins ls s1 in
  grun (cflush E prefix internal plugins i p) s = (s1, l1, None) ->
  grun (cflush E prefix internal plugins i' p') s2 = (s3, l3, None) ->
  (exists v, last_value (NN := XQ sq) (B "ms") key (lines es) v) ->
  picks (value_line (NN := XQ sq) (B "ms") key) ls (fins ds) ->
  exists all ts1 ts3 p999 p99 count mx mean mn rate sd pre post,
    picks (value_line (NN := XQ sq) (B "ms") key) (lines es) all /\
    ntrunc (Num := XQ sq) (e_clock E (w_clk (p_w s))) = Ok ts1 /\
    ntrunc (Num := XQ sq) (e_clock E (w_clk (p_w s2))) = Ok ts3 /\
    timer_summary sq (List.filter (fun q => Qc_leb 0 q) ds) (Z.of_nat (length (all ++ fins ds))) (QcZ ts3 - QcZ ts1)%Qc
      p999 p99 count mx mean mn rate sd /\
    l3 = pre ++ timer_group sq (under prefix key) ts3 p999 p99 count mx mean mn rate sd ++ post.
Proof. exact timer_between. Qed.
Print Assumptions C28_timers.
Theorem C28_new_timers : forall sq (E : env (NN := XQ sq)) prefix internal plugins es i p s1 l1 ls1 m ls2 i' p' s3 l3 key d t0 ds,
  grun (cflush E prefix internal plugins i p) (creached E prefix internal plugins es) = (s1, l1, None) ->
  let before := creceive_all (NN := XQ sq) E prefix internal plugins ls1 s1 in
  let after := creceive_all (NN := XQ sq) E prefix internal plugins (ls1 ++ m :: ls2) s1 in
  grun (cflush E prefix internal plugins i' p') after = (s3, l3, None) ->
  (forall v, ~ last_value (NN := XQ sq) (B "ms") key (lines es) v) ->
  picks (value_line (NN := XQ sq) (B "ms") key) ls1 [] -> value_line (NN := XQ sq) (B "ms") key m (Fin d) ->
  picks (value_line (NN := XQ sq) (B "ms") key) ls2 (fins ds) ->
  e_clock E (S (w_clk (p_w before))) = Fin t0 ->
  exists ts3 p999 p99 count mx mean mn rate sd pre post,
    ntrunc (Num := XQ sq) (e_clock E (w_clk (p_w after))) = Ok ts3 /\
    timer_summary sq (List.filter (fun q => Qc_leb 0 q) (d :: ds)) (Z.of_nat (S (length ds))) (QcZ ts3 - t0)%Qc
      p999 p99 count mx mean mn rate sd /\
    l3 = pre ++ timer_group sq (under prefix key) ts3 p999 p99 count mx mean mn rate sd ++ post.
Proof. exact timer_first. Qed.
Print Assumptions C28_new_timers.

Definition lit_value (l : flit) : Qc := match nlit (Num := demo_num) l with Fin q => q | _ => 0%Qc end.
Definition later_lines : list str := [B "t:10|ms"; B "u:8|ms"; B "t:-1|ms"].
(** [t] was known before the first flush, [u] was not *)
Example C28_case : exists s1 l1 s3 l3,
  grun (cflush (NN := demo_num) demo_env (B "pre") [] [] 10000 90) conf_state = (s1, l1, None) /\
  grun (cflush (NN := demo_num) demo_env (B "pre") [] [] 10000 90) (creceive_all (NN := demo_num) demo_env (B "pre") [] [] later_lines s1) = (s3, l3, None) /\
  (exists v, last_value (NN := demo_num) (B "ms") (B "t") (lines conf_events) v) /\
  picks (value_line (NN := demo_num) (B "ms") (B "t")) later_lines (fins [lit_value (FDec false 10 0); lit_value (FDec true 1 0)]) /\
  (forall v, ~ last_value (NN := demo_num) (B "ms") (B "u") (lines conf_events) v) /\
  picks (value_line (NN := demo_num) (B "ms") (B "u")) [B "t:10|ms"] [] /\
  value_line (NN := demo_num) (B "ms") (B "u") (B "u:8|ms") (Fin (lit_value (FDec false 8 0))) /\
  picks (value_line (NN := demo_num) (B "ms") (B "u")) [B "t:-1|ms"] (fins []).
Proof.
  assert (Ho : (let '(s1, _, o1) := grun (cflush (NN := demo_num) demo_env (B "pre") [] [] 10000 90) conf_state in
     let '(_, _, o3) := grun (cflush (NN := demo_num) demo_env (B "pre") [] [] 10000 90) (creceive_all (NN := demo_num) demo_env (B "pre") [] [] later_lines s1) in
     match o1, o3 with None, None => true | _, _ => false end) = true) by (vm_compute; reflexivity).
  destruct (grun _ conf_state) as [[s1 l1] o1] eqn:E1.
  destruct (grun _ (creceive_all _ _ _ _ _ s1)) as [[s3 l3] o3] eqn:E3. destruct o1, o3; try discriminate Ho.
  exists s1, l1, s3, l3. split; [reflexivity|]. split; [exact E3|]. split; [|split; [|split; [|split; [|split]]]].
  - destruct (last_value_by (NN := demo_num) (B "ms") (B "t") (lines conf_events) 6) as (v & Hv & _); [vm_compute; reflexivity|eauto].
  - apply picks_hit; [exists (B "10"), [B "ms"]; split; [line|exists (FDec false 10 0); split; [apply parse_float_spec; vm_compute; reflexivity|reflexivity]]|].
    apply picks_miss; [apply view_none; vm_compute; reflexivity|].
    apply picks_hit; [exists (B "-1"), [B "ms"]; split; [line|exists (FDec true 1 0); split; [apply parse_float_spec; vm_compute; reflexivity|reflexivity]]|]. constructor.
  - intros v (vs & Hp & Hl). pose proof (picks_view (NN := demo_num) (B "ms") (B "u") (lines conf_events)) as Hp'.
    rewrite (picks_fun _ _ _ _ (value_line_fun (NN := demo_num) _ _) Hp Hp') in Hl.
    assert (Hn : omap (fun m => view (NN := demo_num) (B "ms") m (B "u")) (lines conf_events) = []) by (vm_compute; reflexivity).
    rewrite Hn in Hl. discriminate.
  - apply picks_miss; [apply view_none; vm_compute; reflexivity|constructor].
  - exists (B "8"), [B "ms"]. split; [line|exists (FDec false 8 0); split; [apply parse_float_spec; vm_compute; reflexivity|reflexivity]].
  - apply picks_miss; [apply view_none; vm_compute; reflexivity|constructor].
Qed.

(** C29 *)
Theorem C29_names : forall (NN : Num) E prefix internal plugins es,
  Forall (fun d => conf_name prefix (internal_prefix prefix internal) (known plugins) (dp_name d))
    (g_out (gsys_run (creceive E prefix internal plugins) (cflush E prefix internal plugins) es (gsys_init cp_init))).
Proof. exact @cnames. Qed.
Print Assumptions C29_names.
Theorem C29_internal_prefix : forall prefix given,
  internal_prefix prefix given =
    if bool_decide (given = []) then (if bool_decide (prefix = []) then B "statsd." else prefix ++ B ".statsd.") else given.
Proof. exact internal_prefix_cases. Qed.
Print Assumptions C29_internal_prefix.
Example C29_case :
  map dp_name (take 3 (g_out (gsys_run (creceive (NN := demo_num) demo_env (B "pre") [] []) (cflush (NN := demo_num) demo_env (B "pre") [] [])
    ([Recv (B "a:1|c"); Recv (B "g:2|g"); Start 10000 90] ++ repeat (Resume 0) 9) (gsys_init cp_init)))) =
  [B "pre.a.count"; B "pre.g.value"; B "pre.statsd.numStats"].
Proof. vm_compute. reflexivity. Qed.

(** C30 *)
Theorem C30_transparent : forall (NN : Num) E prefix internal plugins es,
  let C := cp_cls E prefix internal plugins in
  let y := gsys_run (creceive E prefix internal plugins) (cflush E prefix internal plugins) es (gsys_init cp_init) in
  let y' := gsys_run (lreceive E prefix internal plugins) (lp_flush E C) es (gsys_init cp_init) in
  g_out y' = g_out y /\ g_exn y' = g_exn y /\ g_st y = set_info [] (g_st y').
Proof. exact @transparent. Qed.
Print Assumptions C30_transparent.
Theorem C30_log : forall (NN : Num) E prefix internal plugins es e,
  let run es := gsys_run (lreceive E prefix internal plugins) (lp_flush E (cp_cls E prefix internal plugins)) es (gsys_init cp_init) in
  exists new entries, g_out (run (es ++ [e])) = g_out (run es) ++ new /\
    written (g_st (run (es ++ [e]))) = written (g_st (run es)) ++ entries /\
    match e with
    | Recv m => (exists key fields, line_of m key fields) /\ entries = [LIn m] \/
                (~ exists key fields, line_of m key fields) /\ entries = []
    | _ => entries = map LOut new
    end.
Proof. exact @log_step_spec. Qed.
Print Assumptions C30_log.
(** an accepted line, a refused one and the first datapoint of a flush: two entries *)
Example C30_case :
  map (fun x => match x with LIn m => m | LOut d => dp_name d end)
    (written (g_st (gsys_run (lreceive (NN := demo_num) demo_env (B "pre") [] []) (lp_flush demo_env (cp_cls (NN := demo_num) demo_env (B "pre") [] []))
      [Recv (B "a:1|c"); Recv (B "noise"); Start 10000 90; Resume 0] (gsys_init cp_init)))) =
  [B "a:1|c"; B "pre.a.count"].
Proof. vm_compute. reflexivity. Qed.

(** C85 *)
Theorem C85_raises : forall (NN : Num) E prefix internal plugins es key v,
  last_value (B "g") key (lines es) v -> length key <> 2%nat ->
  cp_metric_names (creached E prefix internal plugins es) = Exn ValueError.
Proof. exact @names_raise. Qed.
Print Assumptions C85_raises.
Theorem C85_otherwise : forall (NN : Num) E prefix internal plugins es,
  let s := creached E prefix internal plugins es in
  (forall key v, last_value (B "g") key (lines es) v -> length key = 2%nat) ->
  exists names, cp_metric_names s = Ok names /\
    forall n, n ∈ names <->
      (exists v, last_value (B "ms") n (lines es) v) \/ (exists v, last_value (B "c") n (lines es) v) \/
      (exists a b v, n = [b] /\ last_value (B "g") [a; b] (lines es) v) \/
      is_Some (p_meter s !! n) \/ is_Some (p_plug s !! n).
Proof. exact @names_else. Qed.
Print Assumptions C85_otherwise.
Example C85_case :
  exists names, cp_metric_names conf_state = Ok names /\ [ "g"%char ] ∈ names /\ B "gg" ∉ names.
Proof.
  destruct (cp_metric_names conf_state) as [names|e] eqn:E.
  - exists names. split; [reflexivity|].
    assert (H : match cp_metric_names conf_state with Ok n => bool_decide ([ "g"%char ] ∈ n) && negb (bool_decide (B "gg" ∈ n)) | Exn _ => false end = true) by (vm_compute; reflexivity).
    rewrite E in H. apply andb_prop in H as [H1 H2]. apply bool_decide_eq_true in H1. apply negb_true_iff, bool_decide_eq_false in H2. auto.
  - assert (H : match cp_metric_names conf_state with Ok n => true | Exn _ => false end = true) by (vm_compute; reflexivity).
    rewrite E in H. discriminate.
Qed.
(** one gauge whose name is not two bytes long *)
Example C85_raises_case : cp_metric_names (creached (NN := demo_num) demo_env [] [] [] [Recv (B "load:1|g")]) = Exn ValueError.
Proof. vm_compute. reflexivity. Qed.
