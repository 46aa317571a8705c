(** Properties of the client side API (C65, C68-C72).  [qualified], [bound],
    [says], [total], [transmits], [effect] are the specification of
    ClientMetricsSpec.v; [outcome E P h c] are the messages given to
    [connection.write] by call [c] made after the calls [h], and its result. *)
From Verif Require Import Base StrFacts Num NumFacts Env Stats Glob Metrics Gen Processor
  LineSpec LineFacts FloatFacts ProcFacts ProcSpec ReceiveFacts ReceiveFacts2 ReceiveFacts3 PlugFacts Demo
  ClientMetrics ClientMetricsSpec ClientMetricsFacts ClientMetricsFun ClientServer ClientTotals Decimal.

(** a client with a connection, namespace "app"; draws 0, 1, 2, ...; floats print as 0.5 *)
Definition demo_cenv : cenv (NN := demo_num) :=
  @CEnv demo_num (fun n => Fin (QcZ (Z.of_nat n))) (fun n => Fin (QcZ (Z.of_nat n))) (fun _ => B "0.5").
Definition demo_conf (ext : bool) : mconf := MConf ext true (Some (B "app")).
Definition half : val (NN := demo_num) := VFlt (Num.nlit (FDec false 5 (-1))).

(** C65: for every client, history, name and item without a bar: the line of [distinct]
    (on a name used for distinct) is rejected by every server, whatever its plugins *)
Theorem C65_rejected : forall (NN : Num) CE P h n q item r m E plugins (s : mst),
  qualified (m_ns P) n q -> bound P (h ++ [CDistinct n item]) q KDistinct r ->
  In m (fst (outcome CE P h (CDistinct n item))) ->
  ~ In "|"%char q -> ~ In "|"%char (show CE item) ->
  agg_unchanged s (receive E plugins m s) /\ p_bad (receive E plugins m s) = m :: p_bad s.
Proof.
  exact (fun NN CE P h n q item r m E plugins s Hq Hb Hm Hnq Hni =>
    malformed_ignored E plugins m s (distinct_message CE P h n q item r m plugins Hq Hb Hm Hnq Hni)).
Qed.
Print Assumptions C65_rejected.
Example C65_case : outcome demo_cenv (demo_conf false) [] (CDistinct (Some (B "users")) (VStr (B "bob"))) =
    ([B "app.users:bob|d"], Ok tt) /\
  bound (demo_conf false) ([] ++ [CDistinct (NN := demo_num) (Some (B "users")) (VStr (B "bob"))]) (B "app.users") KDistinct (VInt 1).
Proof.
  split; [vm_compute; reflexivity|]. exists [], (CDistinct (Some (B "users")) (VStr (B "bob"))), [].
  split; [reflexivity|]. split; [|split; [constructor|intros c []]].
  exists (Some (B "users")). split; [constructor|]. apply (q_both (B "app") (B "users")). discriminate.
Qed.

(** C68: any history of unsampled integer increments and decrements through the plain
    API, delivered to the compliant server with any plugins in any state *)
Theorem C68_integers : forall (NN : Num) (NL : NumLaw NN) (NX : NumExact NN) (NI : NumInt NN) CE P E plugins h l (s : mst) key,
  m_ext P = false -> m_conn P = true -> counting P h l ->
  let s' := receive_all E plugins (cl_out (calls CE P h cl_init)) s in
  (~ mentioned key l -> p_counter s' !! key = p_counter s !! key) /\
  (mentioned key l -> p_counter s' !! key = Some (nadd (default n0 (p_counter s !! key)) (nofZ (counted key l)))).
Proof. exact @counting_end_to_end. Qed.
Print Assumptions C68_integers.
(** the text of an integer is read back as that integer *)
Theorem C68_text : forall z, float_text (show_Z z) (FDec (z <? 0) (Z.abs z) 0).
Proof. exact show_Z_text. Qed.
Print Assumptions C68_text.
(** and is the decimal notation of that integer, without superfluous zeros *)
Theorem C68_decimal : forall t z, decimal t z <-> t = show_Z z.
Proof. exact show_Z_decimal. Qed.
Print Assumptions C68_decimal.
(** exact rationals satisfy the hypotheses *)
Theorem C68_exact : forall sq, NumLaw (XQ sq) /\ NumExact (XQ sq) /\ NumInt (XQ sq).
Proof. exact (fun sq => conj (XQ_law sq) (conj (XQ_exact sq) (XQ_int sq))). Qed.
Print Assumptions C68_exact.
Theorem C68_sampled : forall (NN : Num) (NL : NumLaw NN) (NX : NumExact NN) CE P E plugins h n v q k r x rt run y (s : mst),
  m_ext P = false -> m_conn P = true -> qualified (m_ns P) n q -> clean_name q ->
  bound P (h ++ [CIncrement n v r]) q k rt -> below_one rt = true ->
  reads (show CE v) x -> label_ok (show CE rt) -> (forall c, In c (show CE rt) -> (N_of_ascii c < 128)%N) ->
  rate_text (B "@" ++ show CE rt) run -> reads run y -> neqb y n0 = false ->
  (above (next_draw CE P h) rt = true -> outcome CE P h (CIncrement n v r) = ([], Ok tt)) /\
  (above (next_draw CE P h) rt = false -> exists m, outcome CE P h (CIncrement n v r) = ([m], Ok tt) /\
     p_counter (receive E plugins m s) !! normalize_key q =
       Some (nadd (default n0 (p_counter s !! normalize_key q)) (ndiv x y))).
Proof. exact @sampled_increment. Qed.
Print Assumptions C68_sampled.
(** gauge, meter and timing lines are read as samples of the same value, label or not *)
Theorem C68_other_kinds : forall (NN : Num) q f v, clean_name q -> reads f v ->
  gauge_sample (q ++ B ":" ++ f ++ B "|g") (normalize_key q) v /\
  meter_sample (q ++ B ":" ++ f ++ B "|m") (normalize_key q) v /\
  timer_sample (q ++ B ":" ++ f ++ B "|ms") (normalize_key q) v /\
  forall rt, label_ok rt ->
    gauge_sample (q ++ B ":" ++ (f ++ B "|g") ++ B "|@" ++ rt) (normalize_key q) v /\
    meter_sample (q ++ B ":" ++ (f ++ B "|m") ++ B "|@" ++ rt) (normalize_key q) v /\
    timer_sample (q ++ B ":" ++ (f ++ B "|ms") ++ B "|@" ++ rt) (normalize_key q) v.
Proof. exact @value_samples. Qed.
Print Assumptions C68_other_kinds.
Lemma demo_clean : clean_name (B "app.x").
Proof.
  split; [|split].
  - intros H. apply has_In in H. discriminate.
  - intros c q' H. injection H as <- _. intros K. apply in_bool in K. discriminate.
  - intros c H. repeat (destruct H as [<-|H]; [reflexivity|]). destruct H.
Qed.
Lemma demo_qualified : qualified (Some (B "app")) (Some (B "x")) (B "app.x").
Proof. apply (q_both (B "app") (B "x")). discriminate. Qed.
Example C68_case :
  counting (NN := demo_num) (demo_conf false)
    [CIncrement (Some (B "x")) (VInt 5) (VInt 1); CDecrement (Some (B "x")) (VInt 7) (VInt 1)]
    [(B "app.x", 5); (B "app.x", -7)] /\ counted (B "app.x") [(B "app.x", 5); (B "app.x", -7)] = -2 /\
  cl_out (calls demo_cenv (demo_conf false)
    [CIncrement (Some (B "x")) (VInt 5) (VInt 1); CDecrement (Some (B "x")) (VInt 7) (VInt 1)] cl_init) =
    [B "app.x:5|c"; B "app.x:-7|c"].
Proof.
  split; [|split; vm_compute; reflexivity].
  apply (cg_snoc _ [CIncrement (Some (B "x")) (VInt 5) (VInt 1)] [(B "app.x", 5)]).
  - apply (cg_snoc _ [] []); [constructor|]. constructor; [apply demo_qualified|apply demo_clean].
  - apply (cn_dec _ (Some (B "x")) (B "app.x") 7); [apply demo_qualified|apply demo_clean].
Qed.
Example C68_sampled_case : label_ok (show demo_cenv half) /\ rate_text (B "@" ++ show demo_cenv half) (B "0.5") /\
  below_one half = true /\
  outcome demo_cenv (demo_conf false) [] (CIncrement (Some (B "x")) (VInt 3) half) = ([B "app.x:3|c|@0.5"], Ok tt) /\
  outcome demo_cenv (demo_conf false) [CIncrement (Some (B "x")) (VInt 3) half]
    (CIncrement (Some (B "x")) (VInt 3) half) = ([], Ok tt).
Proof.
  split; [|split; [apply rate_match_spec; reflexivity|split; [vm_compute; reflexivity|split; vm_compute; reflexivity]]].
  split; [|split; [discriminate|]].
  - intros H. apply has_In in H. discriminate.
  - intros l c H. change (B "0." ++ B "5" = l ++ [c]) in H. apply (app_inj_tail (B "0.") l "5"%char c) in H as [_ <-].
    intros K. apply in_bool in K. discriminate.
Qed.

(** C69 *)
Theorem C69_qualified : forall P n q, qualify P n = q <-> qualified (m_ns P) n q.
Proof. exact (fun P n q => conj (proj2 (qualified_iff P n q)) (proj1 (qualified_iff P n q))). Qed.
Print Assumptions C69_qualified.
(** and it is the name every message starts with; at most one message per call *)
Theorem C69_messages : forall (NN : Num) CE P h c, exists e, snd (outcome CE P h c) = e /\
  (fst (outcome CE P h c) = [] \/ exists n q rest, names c n /\ qualified (m_ns P) n q /\
     fst (outcome CE P h c) = [q ++ B ":" ++ rest] /\ e = Ok tt).
Proof. exact @messages_named. Qed.
Print Assumptions C69_messages.
Example C69_cases : qualify (MConf false true (Some (B "ns"))) (Some (B "a")) = B "ns.a" /\
  qualify (MConf false true None) (Some (B "a")) = B "a" /\ qualify (MConf false true (Some [])) (Some (B "a")) = B "a" /\
  qualify (MConf false true (Some (B "ns"))) None = B "ns".
Proof. repeat split. Qed.

(** C70: the effect of every call after every history is exactly the specified one *)
Theorem C70_effect : forall (NN : Num) CE P h c out e,
  outcome CE P h c = (out, e) <-> effect CE P h (next_draw CE P h) c out e.
Proof. exact @outcome_iff. Qed.
Print Assumptions C70_effect.
Theorem C70_first_rate : forall (NN : Num) CE P h c q k r m,
  bound P h q k r -> about P c q -> In m (fst (outcome CE P h c)) ->
  exists data, says CE P h q k c data /\
    (below_one r = false /\ m = q ++ B ":" ++ data \/
     below_one r = true /\ above (next_draw CE P h) r = false /\ m = q ++ B ":" ++ data ++ B "|@" ++ show CE r).
Proof. exact @first_rate. Qed.
Print Assumptions C70_first_rate.
Theorem C70_one_binding : forall (NN : Num) P h q k r k' r', bound P h q k r -> bound P h q k' r' -> k = k' /\ r = r'.
Proof. exact @bound_fun. Qed.
Print Assumptions C70_one_binding.
Theorem C70_raises : forall (NN : Num) CE P h n q k r v r' t x,
  qualified (m_ns P) n q -> bound P h q k r -> no_mark k ->
  outcome CE P h (CGauge n v r') = ([], Exn AttributeError) /\
  outcome CE P h (CMeter n v r') = ([], Exn AttributeError) /\
  outcome CE P h (CDistinct n v) = ([], Exn AttributeError) /\
  outcome CE P h (CReport n v t x) = ([], Exn AttributeError).
Proof. exact @no_mark_raises. Qed.
Print Assumptions C70_raises.
(** the other way round a counter line is sent under the gauge's name *)
Theorem C70_increment_never_refused : forall (NN : Num) CE P h n q k r v,
  m_ext P = false -> qualified (m_ns P) n q -> bound P h q k r ->
  snd (outcome CE P h (CIncrement n v (VInt 1))) = Ok tt \/
  snd (outcome CE P h (CIncrement n v (VInt 1))) = Exn UnicodeDecodeError.
Proof. exact @increment_always_speaks. Qed.
Print Assumptions C70_increment_never_refused.
Example C70_case : bound (NN := demo_num) (demo_conf false) [CIncrement (Some (B "x")) (VInt 1) half] (B "app.x") KPlain half /\
  outcome demo_cenv (demo_conf false) [CIncrement (Some (B "x")) (VInt 1) half]
    (CGauge (Some (B "x")) (VInt 1) (VInt 1)) = ([], Exn AttributeError) /\
  outcome demo_cenv (demo_conf false) [CReport (Some (B "x")) (VInt 1) (B "kv") None]
    (CReport (Some (B "x")) (VInt 2) (B "pd") None) = ([B "app.x:2|kv"], Ok tt).
Proof.
  split; [|split; vm_compute; reflexivity]. exists [], (CIncrement (Some (B "x")) (VInt 1) half), [].
  split; [reflexivity|]. split; [exists (Some (B "x")); split; [constructor|apply demo_qualified]|].
  split; [apply (op_inc (demo_conf false))|intros c []].
Qed.

(** C71 *)
Theorem C71_total : forall (NN : Num) CE P h n q z t r r0,
  m_ext P = true -> m_conn P = true -> qualified (m_ns P) n q -> (forall a, In a q -> (N_of_ascii a < 128)%N) ->
  int_total P q h t -> bound P (h ++ [CIncrement n (VInt z) r]) q KCounter r0 -> below_one r0 = false ->
  outcome CE P h (CIncrement n (VInt z) r) = ([q ++ B ":" ++ show_Z (t + z) ++ B "|c"], Ok tt).
Proof. exact @extended_total. Qed.
Print Assumptions C71_total.
Theorem C71_total_decrement : forall (NN : Num) CE P h n q z t r r0,
  m_ext P = true -> m_conn P = true -> qualified (m_ns P) n q -> (forall a, In a q -> (N_of_ascii a < 128)%N) ->
  int_total P q h t -> bound P (h ++ [CDecrement n (VInt z) r]) q KCounter r0 -> below_one r0 = false ->
  outcome CE P h (CDecrement n (VInt z) r) = ([q ++ B ":" ++ show_Z (t - z) ++ B "|c"], Ok tt).
Proof. exact @extended_total_dec. Qed.
Print Assumptions C71_total_decrement.
(** also for floats and sampled calls: every message of a counter carries [total] *)
Theorem C71_any_value : forall (NN : Num) CE P h c q r m,
  m_ext P = true -> bound P (h ++ [c]) q KCounter r -> about P c q -> In m (fst (outcome CE P h c)) ->
  exists t suffix, total P q (h ++ [c]) t /\ m = q ++ B ":" ++ show CE t ++ B "|c" ++ suffix /\
    (suffix = [] \/ suffix = B "|@" ++ show CE r).
Proof. exact @counter_messages. Qed.
Print Assumptions C71_any_value.
Example C71_case :
  let h := [CIncrement (Some (B "x")) (VInt 5) (VInt 1); CDecrement (Some (B "x")) (VInt 7) (VInt 1);
            CClear (Some (B "x")); CIncrement (Some (B "x")) (VInt 4) (VInt 1)] in
  int_total (NN := demo_num) (demo_conf true) (B "app.x") h 4 /\
  cl_out (calls demo_cenv (demo_conf true) (h ++ [CIncrement (Some (B "x")) (VInt 2) (VInt 1)]) cl_init) =
    [B "app.x:5|c"; B "app.x:-2|c"; B "app.x:0|c"; B "app.x:4|c"; B "app.x:6|c"].
Proof.
  split; [|vm_compute; reflexivity].
  pose proof demo_qualified as Q.
  pose proof (it_none (NN := demo_num) (demo_conf true) (B "app.x")) as H0.
  pose proof (it_inc (demo_conf true) (B "app.x") _ (Some (B "x")) 5 (VInt 1) _ Q H0) as H1.
  pose proof (it_dec (demo_conf true) (B "app.x") _ (Some (B "x")) 7 (VInt 1) _ Q H1) as H2.
  pose proof (it_clear (demo_conf true) (B "app.x") _ (Some (B "x")) _ Q H2) as H3.
  exact (it_inc (demo_conf true) (B "app.x") _ (Some (B "x")) 4 (VInt 1) _ Q H3).
Qed.

(** C72 *)
Theorem C72_sampling : forall (NN : Num) CE P h c q k r data,
  about P c q -> bound P (h ++ [c]) q k r -> says CE P h q k c data -> m_conn P = true ->
  (forall a, In a (q ++ B ":" ++ data ++ B "|@" ++ show CE r) -> (N_of_ascii a < 128)%N) ->
  outcome CE P h c =
    (if below_one r then
       if above (next_draw CE P h) r then [] else [q ++ B ":" ++ data ++ B "|@" ++ show CE r]
     else [q ++ B ":" ++ data], Ok tt).
Proof. exact @sampling. Qed.
Print Assumptions C72_sampling.
Theorem C72_draws : forall (NN : Num) CE P h c,
  cl_draws (calls CE P (h ++ [c]) cl_init) = cl_draws (calls CE P h cl_init) \/
  cl_draws (calls CE P (h ++ [c]) cl_init) = S (cl_draws (calls CE P h cl_init)).
Proof. exact @draws_in_order. Qed.
Print Assumptions C72_draws.
Example C72_case : says demo_cenv (demo_conf false) [] (B "app.x") KGauge (CGauge (Some (B "x")) (VInt 3) half) (B "3|g") /\
  outcome demo_cenv (demo_conf false) [] (CGauge (Some (B "x")) (VInt 3) half) = ([B "app.x:3|g|@0.5"], Ok tt).
Proof. split; [|vm_compute; reflexivity]. constructor. apply (mk_gauge demo_cenv (VInt 3)). Qed.
