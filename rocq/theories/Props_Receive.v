(** Properties of receiving lines (C01-C09, C84).  [line_of], [normalised],
    [typed_line], [reads], ... are specifications from LineSpec.v, ProcSpec.v. *)
From Verif Require Import Base StrFacts Num NumFacts Env Stats Glob Metrics Gen Processor
  LineSpec LineFacts FloatFacts ProcFacts ProcSpec ReceiveFacts ReceiveFacts2 ReceiveFacts3 PlugFacts Demo.

(** C01 *)
Theorem C01_normalised :
  (forall key out, normalize_key key = out <-> normalised key out) /\
  (forall key, all_in name_chars (normalize_key key)) /\
  (forall key, normalize_key (normalize_key key) = normalize_key key) /\
  (forall key, all_in name_chars key -> normalize_key key = key).
Proof. exact (conj normalize_key_spec (conj normalize_key_alphabet (conj normalize_key_idemp normalize_key_id))). Qed.
Print Assumptions C01_normalised.
Example C01_case : normalize_key (B "a  b//c!d.e") = B "a_b-cd.e" /\ all_in name_chars (B "x_1-y.Z").
Proof.
  split; [vm_compute; reflexivity|]. intros c H.
  repeat (destruct H as [<-|H]; [apply in_bool; vm_compute; reflexivity|]). destruct H.
Qed.

(** C02: for every processor class [C] (also configurable, logging's parent) *)
Theorem C02_dispatch : forall (NN : Num) TM CM GM (E : env) (C : @cls NN TM CM GM) (m : str) (s : pst TM CM GM),
  (forall raw fields, line_of m raw fields ->
     exists typ key, nth_error fields 1 = Some typ /\ normalised raw key /\
       process E C m s = process_message E C m typ key fields s) /\
  ((forall raw fields, ~ line_of m raw fields) ->
     process E C m s = (set_bad (m :: p_bad s) s, Ok tt)) /\
  (forall raw fields raw' fields', line_of m raw fields -> line_of m raw' fields' ->
     raw = raw' /\ fields = fields').
Proof.
  exact (fun NN TM CM GM E C m s =>
    conj (fun raw fields H =>
            match base_process_line fail (process_message E C) m raw fields s H with
            | ex_intro _ typ (conj Ht Hp) =>
                ex_intro _ typ (ex_intro _ (normalize_key raw)
                  (conj Ht (conj (proj1 (normalize_key_spec raw _) eq_refl) Hp)))
            end)
   (conj (fun H => base_process_not_line fail (process_message E C) m s H)
         (fun raw fields raw' fields' H H' => line_of_unique m raw fields raw' fields' H H'))).
Qed.
Print Assumptions C02_dispatch.
Example C02_case : typed_line (B " a b:1:2|c|@0.5
") (B "c") (B "a_b") [B "1:2"; B "c"; B "@0.5"].
Proof. line. Qed.

(** C03 *)
Theorem C03_malformed : forall (NN : Num) E plugins m (s : mst),
  malformed (plugin_table plugins) m ->
  agg_unchanged s (receive E plugins m s) /\ p_bad (receive E plugins m s) = m :: p_bad s.
Proof. exact @malformed_ignored. Qed.
Print Assumptions C03_malformed.
Example C03_cases : malformed (NN := demo_num) (plugin_table [FDistinct]) (B "a:x|c") /\
  malformed (NN := demo_num) (plugin_table [FDistinct]) (B "a:1|c|0.5") /\
  malformed (NN := demo_num) (plugin_table [FDistinct]) (B "a:1|kv").
Proof.
  split; [|split].
  - eapply mf_counter with (key := B "a") (f0 := B "x") (fs := [B "c"]); [line|apply nan_by; reflexivity].
  - eapply mf_rate with (key := B "a") (f0 := B "1") (f2 := B "0.5"); [line|].
    intros run (rest & H & _). discriminate.
  - eapply mf_type with (t := B "kv") (key := B "a") (fields := [B "1"; B "kv"]); [line| |reflexivity].
    intros [H|[H|[H|H]]]; discriminate.
Qed.

(** C04 *)
Theorem C04_raises : forall (NN : Num) (NL : NumLaw NN) E plugins m (s : mst) e,
  snd (process E (mp_cls E plugins) m s) = Exn e <->
  bad_value_raises m e \/
  exists t key fields, typed_line m t key fields /\ ~ builtin t /\ is_Some (plugin_table plugins !! t) /\
    (build_fails plugins s t key e \/
     (~ (exists e', build_fails plugins s t key e') /\ hits_sli plugins s t key /\
      sli_rejects fields /\ e = ValueError)).
Proof. exact @process_raises. Qed.
Print Assumptions C04_raises.
(** the guarantee "a bad line is only logged" is false *)
Theorem C04_bad_line_only_logged_refuted :
  exists m (s : mst (NN := demo_num)), snd (process demo_env (mp_cls demo_env []) m s) = Exn UnboundLocalError /\
    p_bad (fst (process demo_env (mp_cls demo_env []) m s)) = [m].
Proof. exists (B "temp:hot|g"), mp_init. split; vm_compute; reflexivity. Qed.
Print Assumptions C04_bad_line_only_logged_refuted.
Example C04_cases : bad_value_raises (NN := demo_num) (B "a:1|c|@0") ZeroDivisionError /\
  bad_value_raises (NN := demo_num) (B "a:1|c|@1.2.3") ValueError.
Proof.
  split.
  - eapply br_zero with (key := B "a") (f0 := B "1") (f2 := B "@0") (run := B "0"); [line|number| |number|reflexivity].
    apply rate_match_spec. reflexivity.
  - eapply br_rate with (key := B "a") (f0 := B "1") (f2 := B "@1.2.3") (run := B "1.2.3"); [line|number| |apply nan_by; reflexivity].
    apply rate_match_spec. reflexivity.
Qed.

(** C05: starting from any state (in particular just after a flush), in exact arithmetic *)
Theorem C05_counter_sum : forall (NN : Num) (NL : NumLaw NN) (NX : NumExact NN) E plugins ms (s : mst) key,
  exists l, picks (contribution key) ms l /\
    ((p_counter s !! key = None /\ (forall m, In m ms -> ~ counter_touch m key) /\
      p_counter (receive_all E plugins ms s) !! key = None) \/
     ((is_Some (p_counter s !! key) \/ exists m, In m ms /\ counter_touch m key) /\
      p_counter (receive_all E plugins ms s) !! key =
        Some (nadd (default n0 (p_counter s !! key)) (nsum l)))).
Proof. exact @counter_exact. Qed.
Print Assumptions C05_counter_sum.
(** the same for every arithmetic, with the code's order of operations *)
Theorem C05_counter_fold : forall (NN : Num) (NL : NumLaw NN) E plugins ms (s : mst) key,
  exists l, picks (counter_amount key) ms l /\
    ((p_counter s !! key = None /\ (forall m, In m ms -> ~ counter_touch m key) /\ l = [] /\
      p_counter (receive_all E plugins ms s) !! key = None) \/
     ((is_Some (p_counter s !! key) \/ (exists m, In m ms /\ counter_touch m key)) /\
      p_counter (receive_all E plugins ms s) !! key =
        Some (fold_left nadd l (default n0 (p_counter s !! key))))).
Proof. exact @counter_history. Qed.
Print Assumptions C05_counter_fold.
Example C05_case :
  picks (contribution (NN := demo_num) (B "a")) [B "a:3|c"; B "b:1|c"; B "a:2|c|@0.5"]
    [ndiv (nlit (FDec false 3 0)) n1; ndiv (nlit (FDec false 2 0)) (nlit (FDec false 5 (-1)))].
Proof.
  apply picks_hit.
  { exists (nlit (FDec false 3 0)), n1. split; [|reflexivity]. eapply cs_plain with (f0 := B "3"); [line|number]. }
  apply picks_miss.
  { intros a (v & r & H & _). assert (Hb : typed_line (B "b:1|c") (B "c") (B "b") [B "1"; B "c"]) by line.
    destruct H as [f0 v H1 _|f0 f2 run v r H1 _ _ _ _];
      destruct (typed_line_fun _ _ _ _ _ _ _ H1 Hb) as (_ & H2 & _); discriminate. }
  apply picks_hit; [|constructor].
  exists (nlit (FDec false 2 0)), (nlit (FDec false 5 (-1))). split; [|reflexivity].
  eapply cs_rate with (f0 := B "2") (f2 := B "@0.5") (run := B "0.5"); [line|number|apply rate_match_spec; reflexivity|number|reflexivity].
Qed.

(** C06 *)
Theorem C06_timers_recorded : forall (NN : Num) E plugins ms (s : mst) key,
  exists l, picks (fun m => timer_sample m key) ms l /\
    p_timer (receive_all E plugins ms s) !! key =
      match p_timer s !! key, l with
      | None, [] => None
      | o, _ => Some (default [] o ++ l)
      end.
Proof. exact @timer_history. Qed.
Print Assumptions C06_timers_recorded.
Example C06_case : timer_sample (NN := demo_num) (B "t:320|ms|x") (B "t") (nlit (FDec false 320 0)).
Proof. exists (B "320"), [B "ms"; B "x"]. split; [line|number]. Qed.

(** C07 (all plugin types count as one type, see C84) *)
Theorem C07_isolation : forall (NN : Num) E plugins m t name fields (s : mst),
  typed_line m t name fields ->
  let s' := receive E plugins m s in
  (forall key, (t <> B "c" \/ key <> name) -> p_counter s' !! key = p_counter s !! key) /\
  (forall key, (t <> B "ms" \/ key <> name) -> p_timer s' !! key = p_timer s !! key) /\
  (forall key, (t <> B "g" \/ key <> name) -> gauges_of key s' = gauges_of key s) /\
  (forall key, (t <> B "m" \/ key <> name) -> p_meter s' !! key = p_meter s !! key) /\
  (forall key, (builtin t \/ key <> name) -> p_plug s' !! key = p_plug s !! key).
Proof. exact @isolation. Qed.
Print Assumptions C07_isolation.
Example C07_case : typed_line (B "a:1|g") (B "g") (B "a") [B "1"; B "g"]. Proof. line. Qed.

(** C08 *)
Theorem C08_order_independent : forall (NN : Num) (NL : NumLaw NN) (NX : NumExact NN) E plugins ms ms' (s : mst),
  ms ≡ₚ ms' ->
  p_counter (receive_all E plugins ms s) = p_counter (receive_all E plugins ms' s) /\
  forall key, meter_total (receive_all E plugins ms s) key = meter_total (receive_all E plugins ms' s) key.
Proof.
  exact (fun NN NL NX E plugins ms ms' s H =>
    conj (counter_perm E plugins ms ms' s H) (fun key => meter_perm E plugins ms ms' s key H)).
Qed.
Print Assumptions C08_order_independent.
Example C08_case : [B "a:1|c"; B "b:2|m"; B "a:3|c"] ≡ₚ [B "a:3|c"; B "a:1|c"; B "b:2|m"] /\
  NumExact demo_num.
Proof. split; [|apply XQ_exact]. apply (Permutation_app_comm [B "a:1|c"; B "b:2|m"] [B "a:3|c"]). Qed.

(** C09 *)
Theorem C09_receive_counts : forall (NN : Num) E plugins ms (s : mst) t,
  exists n, counts_to E plugins (counted E plugins t) ms s n /\
    p_btype (receive_all E plugins ms s) !! t =
      match p_btype s !! t with
      | None => if n =? 0 then None else Some n
      | Some k => Some (k + n)
      end.
Proof. exact @btype_history. Qed.
Print Assumptions C09_receive_counts.
Example C09_case : counted demo_env [] (B "c") (B "a:oops|c") (mp_init (NN := demo_num)) /\
  ~ counted demo_env [] (B "g") (B "a:oops|g") (mp_init (NN := demo_num)).
Proof.
  split.
  - split; [|split].
    + exists (B "a"), [B "oops"; B "c"]. line.
    + left. left. reflexivity.
    + vm_compute. reflexivity.
  - intros (_ & _ & H). vm_compute in H. discriminate.
Qed.

(** C84: a plugin metric keeps the class of the plugin that created it; a line of
    another plugin type for the same name is fed to it *)
Theorem C84_plugin_first_use : forall (NN : Num) E plugins m t key fields (s : mst) p,
  typed_line m t key fields -> ~ builtin t -> is_Some (plugin_table plugins !! t) ->
  p_plug s !! key = Some p ->
  exists p', p_plug (receive E plugins m s) !! key = Some p' /\ is_sli p' = is_sli p /\
    forall x, p = PSli x -> p' = PSli (fst (sli_process x fields)).
Proof. exact @plug_first_use. Qed.
Print Assumptions C84_plugin_first_use.
(** hence lines of one plugin type do interfere with another type's metric *)
Theorem C84_types_do_not_interfere_refuted :
  exists (plugins : list (factory (NN := demo_num))) m1 m2 f1 f2,
    typed_line m1 (B "sli") (B "a") f1 /\ typed_line m2 (B "pd") (B "a") f2 /\
    snd (process demo_env (mp_cls demo_env plugins) m2 mp_init) = Ok tt /\
    snd (process demo_env (mp_cls demo_env plugins) m2 (receive demo_env plugins m1 mp_init)) = Exn ValueError.
Proof.
  exists [FSli []; FDistinct], (B "a:5|sli"), (B "a:alice|pd"), [B "5"; B "sli"], [B "alice"; B "pd"].
  refine (conj _ (conj _ (conj _ _))); [line|line|vm_compute; reflexivity|vm_compute; reflexivity].
Qed.
Print Assumptions C84_types_do_not_interfere_refuted.
