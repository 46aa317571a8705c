(** SLI metrics of a service, from the rules in its file to carbon (C104).
    [rules_given files args r]: the rules the command line and the files stand for;
    [installed ts ls]: the lines in force after the texts [ts] were configured in one
    process; [sli_line key m x]: [m] is a line of type sli for the name, with the sample
    [x]; [sum_under name l]: the sum of the whole numbers sent under the name. *)
From Verif Require Import Base StrFacts Num NumFacts Env Stats Glob Metrics Gen GenFacts Processor Configurable LineSpec LineFacts ProcFacts ProcSpec ReceiveFacts ReceiveFacts3
  SliConfig SliFacts SysRun SliSched Plugins SliRules Sched SchedFacts FlushSpec FlushInv FlushFail FlushDerived Demo
  Client Router RouterSpec RouterFacts RouterProps Server ServerSpec Service ServiceSpec ServiceFacts
  ClientMetrics Daemon DaemonFacts Own OwnSpec Assembly AssemblySpec AssemblyFacts Entire SliDaemon Props_Flush Props_Metrics Props_Daemon Props_Service Props_Assembly.
Open Scope Z_scope.

(** C104.  The plugins accept their configuration exactly if every line of the rules is
    one; whatever came before in the process. *)
Theorem C104_accepted : forall (NN : Num) files args o r ps cfg,
  well_formed files -> parse_options files args = Ok o -> rules_given files args r -> ps ≡ₚ [StockSli; StockDistinct] ->
  snd (configure_plugins ps o cfg) = Ok tt <-> forall text, r = Some text -> Forall SliFacts.good (split_on c_nl (strip text)).
Proof.
  intros NN files args o r ps cfg Hw Ho Hr Hp. rewrite (loop_sli files args o cfg r ps Hw Ho Hr Hp). destruct r as [text|].
  - rewrite configure_ok_iff. split; [intros H t [= <-]; exact H|auto].
  - split; [intros _ t H; discriminate|reflexivity].
Qed.
Print Assumptions C104_accepted.
(** What a command line gives is determined. *)
Theorem C104_rules_given : forall files args r r', well_formed files -> rules_given files args r -> rules_given files args r' -> r = r'.
Proof.
  intros files args r r' Hw H H'. destruct H as [Hc|p Hc Hn|p i Hc Hi], H' as [Hc'|p' Hc' Hn'|p' i' Hc' Hi'];
    pose proof (config_path_fun _ _ _ Hc Hc') as Ep; inversion Ep; subst; try reflexivity.
  - exfalso. exact (Hn _ Hi').
  - exfalso. exact (Hn' _ Hi).
  - replace i' with i; [reflexivity|]. pose proof (Hw p') as Hnd. clear -Hi Hi' Hnd. induction (files p') as [|[n j] l IH]; [destruct Hi|].
    cbn [map fst] in Hnd. apply NoDup_cons in Hnd as [Hn Hnd]. destruct Hi as [E|Hi], Hi' as [E'|Hi'].
    + congruence.
    + exfalso. injection E as -> ->. apply Hn, elem_of_list_In, in_map_iff. eexists. split; [|exact Hi']. reflexivity.
    + exfalso. injection E' as -> ->. apply Hn, elem_of_list_In, in_map_iff. eexists. split; [|exact Hi]. reflexivity.
    + auto.
Qed.
Print Assumptions C104_rules_given.
(** Rules add up over the services created in one process, the lines before a bad one
    included; a later line for the same head and label replaces an earlier one. *)
Theorem C104_rules_add_up : forall (NN : Num) ts, exists ls, installed ts ls /\ (forall ls', installed ts ls' -> ls' = ls) /\
  let cfg := fold_left (fun c r => fst (sli_configure c r)) ts ∅ in
  forall h l e, entry cfg h l = Some e <-> last_rule ls h l e.
Proof.
  intros NN ts. destruct (installed_all ts) as (ls & Hi & _ & Hh). exists ls. split; [exact Hi|]. split; [|exact Hh].
  intros ls' Hi'. exact (installed_fun _ _ _ Hi' Hi).
Qed.
Print Assumptions C104_rules_add_up.
(** A service of a process in which others were created: what carbon was handed for an SLI
    metric, together with what unfinished and refused flushes hold, counts exactly a part
    [old] of the samples that arrived, another part [kept] is in the metric, and the rest is
    scheduled.  [never_distinct]: no line of type pd has the name; [no_counter key part]:
    none is for a counter named SLI.key.part. *)
Theorem C104_service : forall (NN : Num) E G files args o node log_info info a is_ip max closes refuses CE addrs h out key ps earlier r ks ls0,
  well_formed files -> parse_options files args = Ok o -> rules_given files args r -> ps ≡ₚ [StockSli; StockDistinct] ->
  installed (earlier ++ [r]) ls0 -> only_conditions ls0 ->
  let before := fold_left (fun c r => fst (sli_configure c r)) earlier ∅ in
  create G (fun o => snd (configure_plugins ps o before)) node o log_info = (info, Ok a) -> a_class _ a = Compliant ->
  let cfg := fst (configure_plugins ps o before) in
  ks ≡ₚ (map_to_list cfg).*1 ->
  value_of files args (B "routing") (OS []) -> addrs = [] \/ closes = false ->
  arrivals max (map (fun a => (a, [])) addrs) (heard h) out ->
  let C := mp_cls E (stock_factories ps cfg ks) in
  let d := o_daemon (service_run (S := mst) G (process_message E C) (flush E C) mp_init a max closes refuses CE is_ip addrs h) in
  exists es, written CE (a_instance _ a) h es /\
  let arrived := metrics_in (a_mon _ a) out ++ own es in
  let path := B "stats.SLI." ++ key in
  let told part := sum_under (path ++ c_dot :: part)
    (map (fun c => snd (fst c)) (d_calls d) ++ flat_map pending (map snd (d_live d) ++ d_gone d)) in
  let free part := Forall (no_counter key part) arrived in
  (Forall (never_distinct key) arrived ->
  exists cs, chosen_by ls0 path cs /\ exists waiting accepted old kept,
    picks (sli_line key) (v_pending (d_srv d)) waiting /\
    picks (sli_line key) arrived accepted /\
    accepted ≡ₚ old ++ kept ++ waiting /\
    match p_plug (d_proc d) !! key with
    | Some (PSli x) => sl_count x = Z.of_nat (length kept) /\ sl_error x = Z.of_nat (length (errors kept)) /\
        forall label, sl_counts x !! label = (fun c => Z.of_nat (length (passing c kept))) <$> cs !! label
    | Some (PDist _) => False
    | None => old = [] /\ kept = []
    end /\
    (free (B "count") -> told (B "count") = Z.of_nat (length old)) /\
    (free (B "error") -> told (B "error") = Z.of_nat (length (errors old))) /\
    (forall label c, cs !! label = Some c -> free (B "count_" ++ label) ->
       told (B "count_" ++ label) = Z.of_nat (length (passing c old)))).
Proof.
  intros NN E G files args o node log_info info a is_ip max closes refuses CE addrs h out key ps earlier r ks ls0 Hw Hp Hr Hps Hi _ before Hc _.
  exact (service_sli E G files args o node log_info info a is_ip max closes refuses CE addrs h out key ps earlier r ks ls0 Hw Hp Hr Hps Hi Hc).
Qed.
Print Assumptions C104_service.
(** The same for a daemon with routing rules, of which none matches what arrives. *)
Theorem C104_daemon : forall (NN : Num) E G ps cfg0 ts ks ls0 interval percent mo max refuses config ls rs rws links addrs es out key,
  ps ≡ₚ [StockSli; StockDistinct] -> installed ts ls0 -> only_conditions ls0 ->
  cfg0 = fold_left (fun c r => fst (sli_configure c r)) ts ∅ -> ks ≡ₚ (map_to_list cfg0).*1 ->
  build_rules G true config [] = (ls, Ok rs) -> rules_of config rws -> length links = length ls ->
  arrivals max (map (fun a => (a, [])) addrs) (nets es) out ->
  let arrived := metrics_in mo out ++ own es in
  Forall (unmatched rws) arrived -> Forall (never_distinct key) arrived ->
  let C := mp_cls E (stock_factories ps cfg0 ks) in
  let d := drun (S := mst) G (process_message E C) (flush E C interval percent) rs mo max false refuses (d_new addrs links mp_init) es in
  let path := B "stats.SLI." ++ key in
  let told part := sum_under (path ++ c_dot :: part)
    (map (fun c => snd (fst c)) (d_calls d) ++ flat_map pending (map snd (d_live d) ++ d_gone d)) in
  let free part := Forall (no_counter key part) arrived in
  exists cs, chosen_by ls0 path cs /\ exists waiting accepted old kept,
    picks (sli_line key) (v_pending (d_srv d)) waiting /\
    picks (sli_line key) arrived accepted /\
    accepted ≡ₚ old ++ kept ++ waiting /\
    match p_plug (d_proc d) !! key with
    | Some (PSli x) => sl_count x = Z.of_nat (length kept) /\ sl_error x = Z.of_nat (length (errors kept)) /\
        forall label, sl_counts x !! label = (fun c => Z.of_nat (length (passing c kept))) <$> cs !! label
    | Some (PDist _) => False
    | None => old = [] /\ kept = []
    end /\
    (free (B "count") -> told (B "count") = Z.of_nat (length old)) /\
    (free (B "error") -> told (B "error") = Z.of_nat (length (errors old))) /\
    (forall label c, cs !! label = Some c -> free (B "count_" ++ label) ->
       told (B "count_" ++ label) = Z.of_nat (length (passing c old))).
Proof.
  intros NN E G ps cfg0 ts ks ls0 interval percent mo max refuses config ls rs rws links addrs es out key Hps Hi _ -> Hks Hb Hr Hl Ha arrived Hu Hn.
  destruct (installed_all ts) as (ls' & Hi' & Hh). rewrite (installed_fun _ _ _ Hi' Hi) in Hh.
  exact (daemon_sli E G ps _ ks ls0 Hps Hh Hks interval percent mo max refuses config ls rs rws links Hb Hr Hl addrs es out key Ha Hu Hn).
Qed.
Print Assumptions C104_daemon.

(** The claim that a service has the rules of its own file only is false: one created later
    in the process also has the earlier ones. *)
Theorem C104_own_rules_only_refuted : exists (t1 t2 head label : str) e,
  snd (sli_configure (NN := demo_num) ∅ (Some t1)) = Ok tt /\
  let cfg := fst (sli_configure (NN := demo_num) ∅ (Some t1)) in
  snd (sli_configure cfg (Some t2)) = Ok tt /\
  entry (fst (sli_configure cfg (Some t2))) head label = Some e /\
  forall e', ~ last_rule (NN := demo_num) (split_on c_nl (strip t2)) head label e'.
Proof.
  exists (B "a => x IF above 1"), (B "b => x IF above 1"), (B "a"), (B "x").
  assert (H : match entry (fst (sli_configure (fst (sli_configure (NN := demo_num) ∅ (Some (B "a => x IF above 1")))) (Some (B "b => x IF above 1")))) (B "a") (B "x") with Some _ => true | None => false end = true) by (vm_compute; reflexivity).
  destruct (entry _ (B "a") (B "x")) as [e|] eqn:He; [|discriminate]. exists e.
  split; [vm_compute; reflexivity|]. split; [vm_compute; reflexivity|]. split; [exact He|].
  intros e' Hl. apply last_rule_in in Hl as (ln & Hin & Hr).
  change (split_on c_nl (strip (B "b => x IF above 1"))) with [B "b => x IF above 1"] in Hin. destruct Hin as [<-|[]].
  destruct Hr as (c & tl & p & Ht & _). apply match_rule_iff in Ht. vm_compute in Ht. discriminate.
Qed.
Print Assumptions C104_own_rules_only_refuted.

(** two rules, three samples, a flush *)
Definition C104_rules : str := B "stats.SLI.api* => slow IF above 5" ++ [c_nl] ++ B "* => ok IF below 5".
Definition C104_files : str -> list section := fun _ => [(B "statsd", []); (B "plugin_sli", [(B "rules", C104_rules)])].
Definition C104_args : list (flag * str) := [(FLong (B "config"), B "f")].
Definition C104_history : list (oevent (NN := demo_num)) :=
  map (fun m => ODaemon (DNet (SDatagram (B "u") m))) [B "api:7|sli"; B "api:3|sli"; B "api:error|sli"; B "api:9|sli"; B "api:2|sli"] ++
  repeat (ODaemon (DNet (SRun 0))) 4 ++ [ODaemon DFlush] ++ repeat (ODaemon (DStep 0)) 12 ++ [].
Lemma C104_parsed : exists o, parse_options C104_files C104_args = Ok o /\
  match create toy_engine (fun o => snd (configure_plugins (NN := demo_num) [StockDistinct; StockSli] o ∅)) (B "host") o false with
  | (false, Ok a) => a_class _ a = Compliant /\ opt_str o (B "routing") = Ok [] /\
      let cfg := fst (configure_plugins (NN := demo_num) [StockDistinct; StockSli] o ∅) in
      let C := mp_cls demo_env (stock_factories [StockDistinct; StockSli] cfg (map_to_list cfg).*1) in
      let d := o_daemon (service_run (S := mst) toy_engine (process_message demo_env C) (flush demo_env C) mp_init a 100 true
        (fun _ _ => None) demo_cenv (fun _ => false) [] C104_history) in
      let told part := sum_under (B "stats.SLI.api" ++ c_dot :: part)
        (map (fun c => snd (fst c)) (d_calls d) ++ flat_map pending (map snd (d_live d) ++ d_gone d)) in
      told (B "count") = 4 /\ told (B "error") = 1 /\ told (B "count_slow") = 2 /\ told (B "count_ok") = 1 /\ v_pending (d_srv d) = [B "api:2|sli"]
  | _ => False
  end.
Proof. apply parsed. vm_compute. repeat split. Qed.
Example C104_case : exists o a ls0,
  well_formed C104_files /\ parse_options C104_files C104_args = Ok o /\ rules_given C104_files C104_args (Some C104_rules) /\
  installed (NN := demo_num) ([] ++ [Some C104_rules]) ls0 /\ only_conditions (NN := demo_num) ls0 /\
  create toy_engine (fun o => snd (configure_plugins (NN := demo_num) [StockDistinct; StockSli] o ∅)) (B "host") o false = (false, Ok a) /\
  a_class _ a = Compliant /\ value_of C104_files C104_args (B "routing") (OS []) /\
  arrivals 100 [] (heard C104_history) (map (pair (B "u")) [B "api:7|sli"; B "api:3|sli"; B "api:error|sli"; B "api:9|sli"; B "api:2|sli"]) /\
  Forall (never_distinct (B "api")) [B "api:7|sli"; B "api:3|sli"; B "api:error|sli"; B "api:9|sli"; B "api:2|sli"].
Proof.
  destruct C104_parsed as (o & Hp & H). destruct (create _ _ _ o false) as [[] [a|e]] eqn:Hc; try contradiction. destruct H as (Hcl & Hrt & _).
  assert (Hw : well_formed C104_files) by (intros p; apply (bool_decide_eq_true_1 _); vm_compute; reflexivity).
  assert (Hg : Forall (SliFacts.good (NN := demo_num)) (rule_lines C104_rules)).
  { apply (configure_ok_iff ∅ C104_rules). vm_compute. reflexivity. }
  assert (Hcp : config_path C104_args (Some (B "f"))).
  { exists [B "f"]. split; [|reflexivity]. constructor; [|constructor]. exists "c"%char, ONone, KStr. split; [left; reflexivity|auto]. }
  exists o, a, ([] ++ rule_lines C104_rules). split; [exact Hw|]. split; [exact Hp|]. split.
  { change (Some C104_rules) with (last (map snd (List.filter (fun e => str_eqb (fst e) (B "rules")) [(B "rules", C104_rules)]))).
    eapply rg_section; [exact Hcp|]. right. left. reflexivity. }
  split; [apply in_taken; [constructor|exact Hg]|]. split.
  { intros l h lb Hin (c & tl & p & Ht & Hpa & Hm). apply match_rule_iff in Ht. inversion Hm; subst; destruct Hin as [<-|[<-|[]]]; vm_compute in Ht; discriminate. }
  split; [exact Hc|]. split; [exact Hcl|]. split.
  { destruct (got_str C104_files C104_args Hw o (B "routing") "g"%char [] Hp) as (x & Hx & Hv); [cbn; tauto|]. rewrite Hrt in Hx. injection Hx as <-. exact Hv. }
  split; [repeat constructor|].
  apply Forall_forall. intros m Hm. apply elem_of_list_In in Hm.
  destruct Hm as [<-|[<-|[<-|[<-|[<-|[]]]]]]; intros fields Ht; apply typed_line_decode in Ht as (raw & Hd & _); vm_compute in Hd; discriminate.
Qed.
(** The claim that the series of an SLI metric are its own is false: a counter may have the
    same name. *)
Theorem C104_own_series_refuted : exists ms : list str,
  let C := mp_cls demo_env (stock_factories [StockSli; StockDistinct] ∅ []) in
  let s := fold_left (fun s m => fst (process demo_env C m s)) ms mp_init in
  let '(_, l, _) := grun (flush demo_env C 10000 90) s in
  map (fun d => match dp_value d with VI n => Some n | VF _ => None end) (List.filter (fun d => str_eqb (dp_name d) (B "stats.SLI.api.count")) l) = [None; Some 1].
Proof. exists [B "SLI.api.count:5|c"; B "api:1|sli"]. vm_compute. reflexivity. Qed.
Print Assumptions C104_own_series_refuted.
