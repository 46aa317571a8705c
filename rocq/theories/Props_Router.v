(** The routing rules (C32-C35, C37-C42). *)
From Verif Require Import Base StrFacts Num Env Stats Glob Metrics Gen Processor Configurable
  LineSpec LineFacts FloatFacts GlobFacts ProcFacts ProcSpec ReceiveFacts Client Router RouterSpec RouterFacts RouterProps
  Server ServerSpec FrameFacts ServerFacts Demo.

(** C32.  [config] is the routing configuration, [rws] what its lines say, [s] the state
    of a router built from it: what reaches the processor are the metrics that the rules
    make of the line's metric, in order; each redirect gets the texts the rules send it. *)
Theorem C32_routes : forall (G : engine) S (inner : str -> str -> str -> list str -> M S unit)
  config ls rs rws (s : @rst S) m t k fs out sent,
  build_rules G true config [] = (ls, Ok rs) -> rules_of config rws -> length (r_links s) = length ls ->
  typed_line m t k fs -> routes G 0 rws [(t, k, fs)] out sent ->
  exists s' r, r_process G inner rs m s = (s', r) /\ handed inner out (r_proc s) (r_proc s') r /\ r_bad s' = r_bad s /\
    forall i, r_links s' !! i = written (texts_to i sent) <$> r_links s !! i.
Proof. exact @process_route. Qed.
Print Assumptions C32_routes.
(** when a rule cannot be applied (a bad glob or a bad replacement) the line is lost with
    an exception and the processor is not called *)
Theorem C32_no_route : forall (G : engine) S (inner : str -> str -> str -> list str -> M S unit)
  config ls rs rws (s : @rst S) m t k fs,
  build_rules G true config [] = (ls, Ok rs) -> rules_of config rws -> length (r_links s) = length ls ->
  typed_line m t k fs -> (~ exists out sent, routes G 0 rws [(t, k, fs)] out sent) ->
  exists s' e, r_process G inner rs m s = (s', Exn e) /\ r_proc s' = r_proc s.
Proof. exact @process_stuck. Qed.
Print Assumptions C32_no_route.
(** a line that is no metric line is recorded and goes nowhere, whatever the rules *)
Theorem C32_ill_formed : forall (G : engine) S (inner : str -> str -> str -> list str -> M S unit) rs (s : @rst S) m,
  (forall raw fields, ~ line_of m raw fields) ->
  r_process G inner rs m s = (RSt (r_proc s) (r_links s) (m :: r_bad s), Ok tt).
Proof. intros G S inner rs s m H. exact (base_process_not_line r_fail (route G inner rs) m s H). Qed.
Print Assumptions C32_ill_formed.
Example C32_ill_formed_case : forall raw fields, ~ line_of (B "a:1") raw fields.
Proof. apply decode_None. vm_compute. reflexivity. Qed.
(** the rules determine the outcome *)
Theorem C32_deterministic : forall (G : engine) rws ms o s o' s',
  routes G 0 rws ms o s -> routes G 0 rws ms o' s' -> o = o' /\ s = s'.
Proof. intros. eapply routes_fun; eassumption. Qed.
Print Assumptions C32_deterministic.
(** the number of redirects, which the theorems above ask for, is kept for ever *)
Theorem C32_links_kept : forall (G : engine) S (inner : str -> str -> str -> list str -> M S unit) config ls rs m (s : @rst S),
  build_rules G true config [] = (ls, Ok rs) -> length (r_links s) = length ls ->
  length (r_links (fst (r_process G inner rs m s))) = length ls.
Proof. exact @process_length. Qed.
Print Assumptions C32_links_kept.

Definition demo_config : str := B "metric_type c g => rewrite a b dup
 not path_like a*  => redirect_tcp h 1
any => set_metric_type g

path_like b* => drop".
Definition demo_rules : list rule_text :=
  [([B "metric_type"; B "c"; B "g"], [B "rewrite"; B "a"; B "b"; B "dup"]);
   ([B "not"; B "path_like"; B "a*"], [B "redirect_tcp"; B "h"; B "1"]);
   ([B "any"], [B "set_metric_type"; B "g"]);
   ([B "path_like"; B "b*"], [B "drop"])].
Lemma glob_by p t k fs b : fnmatch k p = Ok b -> matches [B "path_like"; p] (t, k, fs) b.
Proof. intros H. apply (matches_iff _ (CLike p)); [constructor|]. exact H. Qed.
Example C32_case :
  rules_of demo_config demo_rules /\
  (exists ls rs, build_rules toy_engine true demo_config [] = (ls, Ok rs)) /\
  typed_line (B "ax:1|c") (B "c") (B "ax") [B "1"; B "c"] /\
  routes toy_engine 0 demo_rules [(B "c", B "ax", [B "1"; B "c"])]
    [(B "g", B "ax", [B "1"; B "c"])] [(0%nat, B "bx:1|c")].
Proof.
  split; [apply rules_by; vm_compute; reflexivity|]. split; [do 2 eexists; vm_compute; reflexivity|]. split; [line|].
  apply (ro_rule toy_engine 0 _ _ _ [(B "c", B "ax", [B "1"; B "c"]); (B "c", B "bx", [B "1"; B "c"])] _ [] [(0%nat, B "bx:1|c")]).
  - apply (aa_cons _ _ _ _ [_; _] [] [] []); [|constructor]. apply ap_hit; [constructor; vm_compute; tauto|].
    eapply ef_rewrite_dup; reflexivity.
  - apply (ro_rule toy_engine 0 _ _ _ [(B "c", B "ax", [B "1"; B "c"]); (B "c", B "bx", [B "1"; B "c"])] _ [B "bx:1|c"] []).
    + apply (aa_cons _ _ _ _ [_] [_] [] [_]); [|apply (aa_cons _ _ _ _ [_] [] [_] []); [|constructor]].
      * apply ap_skip. apply (ma_not _ _ true). apply glob_by. reflexivity.
      * apply ap_hit; [|constructor]. apply (ma_not _ _ false). apply glob_by. reflexivity.
    + apply (ro_rule toy_engine 1 _ _ _ [(B "g", B "ax", [B "1"; B "c"]); (B "g", B "bx", [B "1"; B "c"])] _ [] []).
      * apply (aa_cons _ _ _ _ [_] [_] [] []); [|apply (aa_cons _ _ _ _ [_] [] [] []); [|constructor]];
          (apply ap_hit; constructor).
      * apply (ro_rule toy_engine 1 _ _ _ [(B "g", B "ax", [B "1"; B "c"])] _ [] []); [|constructor].
        apply (aa_cons _ _ _ _ [_] [] [] []); [|apply (aa_cons _ _ _ _ [] [] [] []); [|constructor]].
        -- apply ap_skip. apply glob_by. reflexivity.
        -- apply ap_hit; [apply glob_by; reflexivity|constructor].
Qed.

(** C33.  If no condition matches a line's metric (in particular with no rules at all),
    then after any sequence of lines the processor behind the router holds the same data
    as one used directly, and every line had the same outcome.  [same]: equal except for
    the list of rejected lines. *)
Theorem C33_transparent : forall (NN : Num) E plugins (G : engine) config ls rs rws ms (s : @rst mst) p,
  build_rules G true config [] = (ls, Ok rs) -> rules_of config rws -> length (r_links s) = length ls ->
  (forall m t k fs, In m ms -> typed_line m t k fs -> Forall (fun r => matches (fst r) (t, k, fs) false) rws) ->
  same (r_proc s) p ->
  let '(s', outs) := feed (r_process G (process_message E (mp_cls E plugins)) rs) ms s in
  let '(p', outs') := feed (process E (mp_cls E plugins)) ms p in
  same (r_proc s') p' /\ outs = outs' /\ r_links s' = r_links s.
Proof.
  intros NN E plugins G config ls rs rws ms s p Hb Hr Hl Hu Hs.
  apply (transparent_all E _ G rws rs ms s p); [apply mp_plain|exact (whole_built G config ls rs rws s Hb Hr Hl)| |exact Hs].
  apply Forall_forall. intros m Hm. rewrite elem_of_list_In in Hm. intros t k fs Ht. exact (Hu m t k fs Hm Ht).
Qed.
Print Assumptions C33_transparent.
Theorem C33_transparent_configurable : forall (NN : Num) E prefix internal plugins (G : engine) config ls rs rws ms (s : @rst cst) p,
  build_rules G true config [] = (ls, Ok rs) -> rules_of config rws -> length (r_links s) = length ls ->
  (forall m t k fs, In m ms -> typed_line m t k fs -> Forall (fun r => matches (fst r) (t, k, fs) false) rws) ->
  same (r_proc s) p ->
  let '(s', outs) := feed (r_process G (process_message E (cp_cls E prefix internal plugins)) rs) ms s in
  let '(p', outs') := feed (process E (cp_cls E prefix internal plugins)) ms p in
  same (r_proc s') p' /\ outs = outs' /\ r_links s' = r_links s.
Proof.
  intros NN E prefix internal plugins G config ls rs rws ms s p Hb Hr Hl Hu Hs.
  apply (transparent_all E _ G rws rs ms s p); [apply cp_plain|exact (whole_built G config ls rs rws s Hb Hr Hl)| |exact Hs].
  apply Forall_forall. intros m Hm. rewrite elem_of_list_In in Hm. intros t k fs Ht. exact (Hu m t k fs Hm Ht).
Qed.
Print Assumptions C33_transparent_configurable.
(** the data in question: all of it *)
Theorem C33_same_data : forall (NN : Num) TM CM GM (a b : pst TM CM GM), same a b <->
  p_timer a = p_timer b /\ p_counter a = p_counter b /\ p_gauge a = p_gauge b /\ p_meter a = p_meter b /\
  p_plug a = p_plug b /\ p_ptime a = p_ptime b /\ p_btype a = p_btype b /\ p_lfd a = p_lfd b /\ p_lpd a = p_lpd b /\
  p_w a = p_w b /\ p_info a = p_info b.
Proof.
  intros NN TM CM GM [] []. unfold same, set_bad. cbn. split; [intros [=]; subst; tauto|intros (?&?&?&?&?&?&?&?&?&?&?); subst; reflexivity].
Qed.
Print Assumptions C33_same_data.
Example C33_case : build_rules toy_engine true [] [] = ([], Ok []) /\ rules_of [] [] /\
  rules_of (B "metric_type x => drop") [([B "metric_type"; B "x"], [B "drop"])] /\
  matches [B "metric_type"; B "x"] (B "c", B "a", [B "1"; B "c"]) false.
Proof.
  split; [reflexivity|]. split; [apply rules_by; reflexivity|]. split; [apply rules_by; vm_compute; reflexivity|].
  apply ma_out. intros [H|[]]. discriminate H.
Qed.

(** C34.  Once a drop rule is reached by metrics all of which it matches, nothing more
    happens: what was sent before stays sent, the processor is not called, and the rules
    after it (any rules) send nothing and raise nothing. *)
Theorem C34_dropped : forall (G : engine) S (inner : str -> str -> str -> list str -> M S unit)
  config ls rs pre cw post (s : @rst S) m t k fs mid sent,
  build_rules G true config [] = (ls, Ok rs) -> rules_of config (pre ++ (cw, [B "drop"]) :: post) ->
  length (r_links s) = length ls -> typed_line m t k fs ->
  routes G 0 pre [(t, k, fs)] mid sent -> Forall (fun x => matches cw x true) mid ->
  exists s', r_process G inner rs m s = (s', Ok tt) /\ r_proc s' = r_proc s /\ r_bad s' = r_bad s /\
    (forall i, r_links s' !! i = written (texts_to i sent) <$> r_links s !! i) /\
    (forall i, (redirects pre <= i)%nat -> r_links s' !! i = r_links s !! i).
Proof.
  intros G S inner config ls rs pre cw post s m t k fs mid sent Hb Hr Hl Ht Hs Hd.
  pose proof (drop_routes G pre cw post _ mid sent Hs Hd) as Hro.
  destruct (process_route G inner _ _ _ _ s m t k fs [] sent Hb Hr Hl Ht Hro) as (s' & r & E & Hh & Hbad & Hlinks).
  inversion Hh; subst. exists s'. repeat split; auto. intros i Hi. rewrite Hlinks, texts_to_none.
  - cbn. destruct (r_links s !! i); reflexivity.
  - eapply Forall_impl; [eapply routes_links, Hs|]. cbn. intros it. lia.
Qed.
Print Assumptions C34_dropped.
Example C34_case : routes toy_engine 0 [] [(B "c", B "ax", [B "1"; B "c"])] [(B "c", B "ax", [B "1"; B "c"])] [] /\
  matches [B "any"] (B "c", B "ax", [B "1"; B "c"]) true /\
  rules_of (B "any => drop
any => redirect_tcp h 1") ([] ++ ([B "any"], [B "drop"]) :: [([B "any"], [B "redirect_tcp"; B "h"; B "1"])]).
Proof. split; [constructor|]. split; [constructor|]. apply rules_by. vm_compute. reflexivity. Qed.

(** C35.  The condition of a rule, read from its text, decides as [matches] says: seen
    through a configuration with one drop rule. *)
Theorem C35_conditions : forall (G : engine) S (inner : str -> str -> str -> list str -> M S unit)
  config ls rs cw (s : @rst S) m t k fs,
  build_rules G true config [] = (ls, Ok rs) -> rules_of config [(cw, [B "drop"])] ->
  length (r_links s) = length ls -> typed_line m t k fs ->
  (matches cw (t, k, fs) true -> r_process G inner rs m s = (s, Ok tt)) /\
  (matches cw (t, k, fs) false -> exists p r, handed inner [(t, k, fs)] (r_proc s) p r /\
     r_process G inner rs m s = (RSt p (r_links s) (r_bad s), r)).
Proof.
  intros G S inner config ls rs cw s m t k fs Hb Hr Hl Ht.
  destruct (route_spec G inner true _ rs m t k fs s ltac:(eapply whole_built; eassumption)) as [H _].
  rewrite (process_typed G inner rs m t k fs s Ht). split; intros Hm.
  - destruct (H [] []) as (p' & r & Hh & E).
    { apply (drop_routes G [] cw [] _ [(t, k, fs)] []); [constructor|]. constructor; [exact Hm|constructor]. }
    inversion Hh; subst. rewrite E. destruct s; reflexivity.
  - destruct (H [(t, k, fs)] []) as (p' & r & Hh & E).
    { apply routes_skip. constructor; [exact Hm|constructor]. }
    eauto.
Qed.
Print Assumptions C35_conditions.
(** a condition decides every metric, unless a glob in it is one python cannot compile *)
Theorem C35_total : forall cw m, good_cond cw -> (forall p, In p cw -> proper p) -> exists b, matches cw m b.
Proof.
  intros cw [[t k] fs] Hc. apply good_cond_iff in Hc as [c Hc]. induction Hc as [|ws c H IH|ts|p]; intros Hp.
  - exists true. constructor.
  - destruct IH as [b Hb]; [|exists (negb b); constructor; exact Hb]. intros p Hin. apply Hp. right.
    unfold squeeze in Hin. apply elem_of_list_In, elem_of_list_filter in Hin as [_ Hin]. apply elem_of_list_In. exact Hin.
  - destruct (existsb (str_eqb t) ts) eqn:E.
    + exists true. constructor. apply existsb_str. exact E.
    + exists false. constructor. rewrite <- existsb_str, E. discriminate.
  - assert (Hpp : proper p) by (apply Hp; right; left; reflexivity).
    destruct (fnmatch_spec k p) as [F1 _]. destruct (F1 Hpp) as (b & Hb & Hi). exists b.
    destruct b; [apply ma_like|apply ma_unlike]; try assumption; [apply Hi; reflexivity|].
    intros Hd. apply Hi in Hd. discriminate.
Qed.
Print Assumptions C35_total.
Example C35_case : matches [B "not"; B "not"; B "path_like"; B "a*"] (B "c", B "ax", [B "1"; B "c"]) true /\
  good_cond [B "not"; B "not"; B "path_like"; B "a*"].
Proof.
  split; [|repeat constructor].
  apply (ma_not _ _ false), (ma_not _ _ true). apply glob_by. reflexivity.
Qed.

(** C37. *)
Theorem C37_accepted : forall (G : engine) service config,
  (exists ls rs, build_rules G service config [] = (ls, Ok rs)) <->
  (exists rws, rules_of config rws /\ Forall (fun r => good_cond (fst r) /\ good_target G service (snd r)) rws).
Proof.
  intros G service config. split.
  - intros (ls & rs & H). apply build_rules_iff in H as (rws & Hr & Hb). exists rws. split; [exact Hr|].
    eapply built_good. eauto.
  - intros (rws & Hr & Hg). apply (built_good G service 0) in Hg as (rs & ls & Hb). exists ls, rs.
    apply build_rules_iff. eauto.
Qed.
Print Assumptions C37_accepted.
(** otherwise something is raised (and no rules exist); one rule per line, one redirect
    per redirecting line *)
Theorem C37_rules : forall (G : engine) service config,
  (exists ls rs rws, build_rules G service config [] = (ls, Ok rs) /\ rules_of config rws /\ length rs = length rws /\
     (service = true -> length ls = redirects rws)) \/
  (exists ls e, build_rules G service config [] = (ls, Exn e)).
Proof.
  intros G service config. destruct (build_rules G service config []) as [ls [rs|e]] eqn:E; [left|right; eauto].
  pose proof E as E'. apply build_rules_iff in E as (rws & Hr & Hb). exists ls, rs, rws. repeat split; auto.
  - eapply built_rules_length, Hb.
  - intros ->. eapply built_length, Hb.
Qed.
Print Assumptions C37_rules.
Example C37_case : (exists rws, rules_of demo_config rws /\ Forall (fun r => good_cond (fst r) /\ good_target toy_engine true (snd r)) rws) /\
  (exists ls e, build_rules toy_engine true (B "any => drop => drop") [] = (ls, Exn e)) /\
  (exists ls e, build_rules toy_engine true (B "any => redirect_tcp h x") [] = (ls, Exn e)) /\
  (exists ls e, build_rules toy_engine true (B "some => drop") [] = (ls, Exn e)).
Proof.
  split; [|split; [|split]]; try (do 2 eexists; vm_compute; reflexivity).
  apply C37_accepted. do 2 eexists. vm_compute. reflexivity.
Qed.

(** C38.  Whatever the rules do to the type and the name, what is redirected and what is
    handed to the processor still has the fields that arrived; a redirected text is read
    by a receiver as a metric of the type that arrived. *)
Theorem C38_fields_kept : forall (G : engine) rws m t k fs out sent,
  typed_line m t k fs -> routes G 0 rws [(t, k, fs)] out sent ->
  Forall (fun x => snd x = fs) out /\
  Forall (fun it => exists k', snd it = k' ++ B ":" ++ barred fs) sent.
Proof.
  intros G rws m t k fs out sent _ H. eapply routes_fields; [exact H|]. repeat constructor.
Qed.
Print Assumptions C38_fields_kept.
Theorem C38_type_restored : forall (m t k : str) fs k',
  typed_line m t k fs -> all_in name_chars k' -> typed_line (k' ++ B ":" ++ barred fs) t k' fs.
Proof. exact type_restored. Qed.
Print Assumptions C38_type_restored.

Theorem C38_set_type_lost_refuted : exists (G : engine) rws m t k fs out sent t' k' fs',
  typed_line m t k fs /\ routes G 0 rws [(t, k, fs)] out sent /\
  In (t', k', fs') out /\ t' <> t /\ sent = [(0%nat, text_of (t', k', fs'))] /\ typed_line (text_of (t', k', fs')) t k' fs'.
Proof.
  exists toy_engine, [([B "any"], [B "set_metric_type"; B "g"]); ([B "any"], [B "redirect_udp"; B "h"; B "1"])],
    (B "a:1|c"), (B "c"), (B "a"), [B "1"; B "c"], [(B "g", B "a", [B "1"; B "c"])], [(0%nat, B "a:1|c")],
    (B "g"), (B "a"), [B "1"; B "c"].
  split; [line|]. split.
  - apply (ro_rule toy_engine 0 _ _ _ [(B "g", B "a", [B "1"; B "c"])] _ [] [(0%nat, B "a:1|c")]).
    + apply (aa_cons _ _ _ _ [_] [] [] []); [|constructor]. apply ap_hit; constructor.
    + apply (ro_rule toy_engine 0 _ _ _ [(B "g", B "a", [B "1"; B "c"])] _ [B "a:1|c"] []); [|constructor].
      apply (aa_cons _ _ _ _ [_] [] [_] []); [|constructor]. apply ap_hit; constructor.
  - split; [left; reflexivity|]. split; [discriminate|]. split; [reflexivity|]. line.
Qed.
Print Assumptions C38_set_type_lost_refuted.
Example C38_case : typed_line (B " a b:1|c|@0.5") (B "c") (B "a_b") [B "1"; B "c"; B "@0.5"] /\ all_in name_chars (B "new.name").
Proof. split; [line|]. intros c Hc. vm_compute in Hc. decompose [or] Hc; subst; vm_compute; tauto. Qed.

(** C39.  Redirect number [redirects pre] belongs to the rule after [pre]: it is given
    one text per metric that reaches the rule and matches, in order; the rules after it
    work on the same metrics. *)
Theorem C39_redirect : forall (G : engine) S (inner : str -> str -> str -> list str -> M S unit)
  config ls rs pre cw tw post (s : @rst S) m t k fs out sent,
  build_rules G true config [] = (ls, Ok rs) -> rules_of config (pre ++ (cw, tw) :: post) -> redirect tw <> None ->
  length (r_links s) = length ls -> typed_line m t k fs -> routes G 0 (pre ++ (cw, tw) :: post) [(t, k, fs)] out sent ->
  exists mid sent1 hits sent2,
    routes G 0 pre [(t, k, fs)] mid sent1 /\ picked cw mid hits /\ routes G (redirects pre + 1) post mid out sent2 /\
    r_links (fst (r_process G inner rs m s)) !! redirects pre = written (map text_of hits) <$> r_links s !! redirects pre.
Proof.
  intros G S inner config ls rs pre cw tw post s m t k fs out sent Hb Hr Hrd Hl Ht Hs.
  destruct (redirect_routes G pre cw tw post _ out sent Hrd Hs) as (mid & s1 & hits & s2 & H1 & H2 & H3 & H4).
  destruct (process_route G inner _ _ _ _ s m t k fs out sent Hb Hr Hl Ht Hs) as (s' & r & E & _ & _ & Hlinks).
  exists mid, s1, hits, s2. rewrite E. cbn [fst]. rewrite Hlinks, H4. auto.
Qed.
Print Assumptions C39_redirect.
Theorem C39_no_service : forall (G : engine) S (inner : str -> str -> str -> list str -> M S unit)
  config ls rs rws (s : @rst S) pre cw tw post m t k fs a x b,
  build_rules G false config [] = (ls, Ok rs) -> rules_of config rws -> rws = pre ++ (cw, tw) :: post ->
  redirect tw <> None -> Forall (fun r => redirect (snd r) = None) pre ->
  typed_line m t k fs -> routes G 0 pre [(t, k, fs)] (a ++ x :: b) [] ->
  Forall (fun y => matches cw y false) a -> matches cw x true ->
  r_process G inner rs m s = (s, Exn TypeError).
Proof. exact @process_no_service. Qed.
Print Assumptions C39_no_service.
Example C39_case :
  rules_of (B "any => redirect_udp h 1") ([] ++ ([B "any"], [B "redirect_udp"; B "h"; B "1"]) :: []) /\
  (exists ls rs, build_rules toy_engine true (B "any => redirect_udp h 1") [] = (ls, Ok rs) /\ length ls = 1%nat) /\
  (exists ls rs, build_rules toy_engine false (B "any => redirect_udp h 1") [] = (ls, Ok rs)) /\
  redirect [B "redirect_udp"; B "h"; B "1"] <> None /\
  picked [B "any"] [(B "c", B "a", [B "1"; B "c"])] [(B "c", B "a", [B "1"; B "c"])].
Proof.
  split; [apply rules_by; vm_compute; reflexivity|]. split; [do 2 eexists; split; vm_compute; reflexivity|].
  split; [do 2 eexists; vm_compute; reflexivity|]. split; [discriminate|]. repeat constructor.
Qed.

(** C40.  What each write puts on the wire of a connection that is not paused. *)
Theorem C40_frame : forall p t, tp_paused p = false -> t <> [] ->
  exists p' w, tp_write t p = (p', Ok tt) /\ tp_wire p' = tp_wire p ++ [w] /\ tp_paused p' = false /\
    ((exists u, t = u ++ CRLF) -> w = t) /\
    ((exists u, t = u ++ [c_cr]) -> w = t ++ [c_nl]) /\
    (~ (exists u, t = u ++ CRLF) -> ~ (exists u, t = u ++ [c_cr]) -> w = t ++ CRLF).
Proof.
  intros p t Hp Ht. rewrite tp_write_frame by assumption. do 2 eexists. split; [reflexivity|]. cbn. split; [reflexivity|]. split; [reflexivity|].
  split; [|split].
  - intros (u & ->). rewrite body_crlf. reflexivity.
  - intros (u & ->). rewrite body_cr, <- app_assoc. reflexivity.
  - intros H1 H2. rewrite body_plain; [reflexivity|exact H2|exact H1].
Qed.
Print Assumptions C40_frame.
(** texts without CRLF (and not ending in CR) written on a new connection arrive, however
    the stream is cut into chunks, at a server that reads lines: as if each text had been
    received by itself, in order *)
Theorem C40_received : forall S cfg max (ts : list str) p cs addr (s : @server S),
  tp_wire p = [] -> tp_paused p = false ->
  Forall (fun t => t <> [] /\ ~ has_crlf t /\ ~ (exists u, t = u ++ [c_cr]) /\ (length t < max)%nat) ts -> (0 < max)%nat ->
  concat cs = concat (tp_wire (fst (prun (map PWrite ts) p))) ->
  snd (feed_chunks cfg max false cs (conn_new addr) s) = fold_left (fun s t => fst (received cfg addr t s)) ts s.
Proof.
  intros S cfg max ts p cs addr s Hw Hp Ht Hm Hc.
  rewrite wire_ok in Hc; [|exact Hw|exact Hp|eapply Forall_impl; [exact Ht|]; cbn; tauto].
  assert (Hbody : Forall (fun t => body t = t) ts).
  { eapply Forall_impl; [exact Ht|]. cbn. intros t (H1 & H2 & H3 & H4). apply body_plain; [exact H3|].
    intros (u & ->). apply H2. exists u, []. rewrite app_nil_r. reflexivity. }
  rewrite stream_ok.
  - cbn [snd]. rewrite Hc. replace (done (wire_of ts)) with ts; [reflexivity|]. symmetry. apply lines_iff.
    eapply Forall_impl; [exact Ht|]. cbn. unfold ends_in. tauto.
  - rewrite Hc. apply wire_short; [|exact Hm]. rewrite Forall_forall in Ht, Hbody |- *. intros t Hin.
    rewrite (Hbody t Hin). apply Ht, Hin.
Qed.
Print Assumptions C40_received.
(** what the router sends never ends in CR (and is never empty) *)
Theorem C40_router_texts : forall (G : engine) rws m t k fs out sent,
  typed_line m t k fs -> routes G 0 rws [(t, k, fs)] out sent ->
  Forall (fun it => snd it <> [] /\ ~ exists u, snd it = u ++ [c_cr]) sent.
Proof.
  intros G rws m t k fs out sent (raw & Hl & _ & _) H.
  eapply (routes_fields G fs) in H as [_ H]; [|repeat constructor].
  eapply Forall_impl; [exact H|]. cbn. intros [i x] (k' & ->). cbn [snd]. split; [destruct k'; discriminate|].
  intros Hc. eapply line_tail in Hc; [|exact Hl]. apply Hc. vm_compute. tauto.
Qed.
Print Assumptions C40_router_texts.
Example C40_case : Forall (fun t => t <> [] /\ ~ has_crlf t /\ ~ (exists u, t = u ++ [c_cr]) /\ (length t < 100)%nat) [B "a:1|c"; B "b:2|g"].
Proof.
  assert (H : forall t, t <> [] -> cut t = [t] -> ends_crlf (t ++ [c_nl]) = false -> (length t < 100)%nat ->
    t <> [] /\ ~ has_crlf t /\ ~ (exists u, t = u ++ [c_cr]) /\ (length t < 100)%nat).
  { intros t H1 H2 H3 H4. split; [exact H1|]. split.
    - intros Hc. destruct (cut_cases t) as [[Hn _]|(u & v & _ & _ & E & _)]; [contradiction|].
      rewrite E in H2. injection H2 as _ H2. revert H2. apply cut_nonempty.
    - split; [|exact H4]. intros (u & ->). rewrite <- app_assoc in H3. rewrite (proj2 (ends_crlf_iff _)) in H3; [discriminate|]. exists u. reflexivity. }
  constructor; [|constructor; [|constructor]]; (apply H; [discriminate|reflexivity|reflexivity|apply Nat.ltb_lt; reflexivity]).
Qed.

(** C41.  After any events on a paused connection: still paused, nothing was written,
    every write was dropped and counted, and every resume raised. *)
Theorem C41_paused_for_ever : forall es p, tp_paused p = true ->
  let '(p', rs) := prun es p in
  tp_paused p' = true /\ tp_wire p' = tp_wire p /\ tp_dropped p' = (tp_dropped p + count_writes es)%nat /\ rs = map outcome es.
Proof. exact paused_forever. Qed.
Print Assumptions C41_paused_for_ever.
Theorem C41_pause : forall now p, exists p', tp_pause now p = (p', Ok tt) /\ tp_paused p' = true /\ tp_wire p' = tp_wire p.
Proof. intros. eexists. repeat split. Qed.
Print Assumptions C41_pause.
Theorem C41_flows_after_resume_refuted : exists t now now' p,
  tp_paused p = false /\ t <> [] /\
  tp_wire (fst (prun [PPause now; PResume now'; PWrite t] p)) = tp_wire p.
Proof. exists (B "a:1|c"), 1, 2, tp_new. repeat split. discriminate. Qed.
Print Assumptions C41_flows_after_resume_refuted.
(** only a new connection recovers *)
Theorem C41_reconnect : forall f, exists p, tf_proto (tf_build f) = Some p /\ tp_paused p = false /\ tp_wire p = [].
Proof. intros. eexists. repeat split. Qed.
Print Assumptions C41_reconnect.
Example C41_case : tp_paused (fst (tp_pause 1 tp_new)) = true. Proof. reflexivity. Qed.

(** C42.  The lines in what was written are the texts iff no text contains CRLF or ends
    in CR. *)
Theorem C42_exact_iff : forall ts p, tp_wire p = [] -> tp_paused p = false -> Forall (fun t => t <> []) ts ->
  (lines_of (concat (tp_wire (fst (prun (map PWrite ts) p)))) ts [] <->
   Forall (fun t => ~ has_crlf t /\ ~ exists u, t = u ++ [c_cr]) ts).
Proof.
  intros ts p Hw Hp Ht. rewrite wire_ok by assumption. rewrite lines_of_iff, rest_wire, lines_iff. unfold ends_in, crlf_in, has_crlf, occurs2.
  split; [intros [H _]; exact H|intros H; split; [exact H|reflexivity]].
Qed.
Print Assumptions C42_exact_iff.
(** the text of a metric contains CRLF iff its name or one of its fields does *)
Theorem C42_fields : forall t k fs, has_crlf (text_of (t, k, fs)) <-> has_crlf k \/ Exists has_crlf fs.
Proof. exact crlf_text. Qed.
Print Assumptions C42_fields.
(** one datagram, forwarded, makes the receiver process another metric *)
Theorem C42_injection_refuted : exists rs ls m,
  build_rules toy_engine true (B "any => redirect_tcp h 1") [] = (ls, Ok rs) /\
  let s := RSt tt [LTcp (tf_build tf_new)] [] in
  let s' := fst (r_process toy_engine (fun _ _ _ _ p => (p, Ok tt)) rs m s) in
  exists f, r_links s' !! 0%nat = Some (LTcp f) /\
  exists p, tf_proto f = Some p /\
  lines_of (concat (tp_wire p)) [B "a:1"; B "evil:5|c"] [] /\
  typed_line (B "evil:5|c") (B "c") (B "evil") [B "5"; B "c"] /\
  (forall t k fs, typed_line m t k fs -> k = B "a").
Proof.
  do 2 eexists. exists (B "a:1" ++ CRLF ++ B "evil:5|c").
  split; [vm_compute; reflexivity|]. cbv zeta.
  eexists. split; [vm_compute; reflexivity|]. eexists. split; [reflexivity|].
  split; [apply lines_of_iff; split; vm_compute; reflexivity|]. split; [line|].
  intros t k fs H. apply typed_line_decode in H as (raw & Hd & <-). vm_compute in Hd. injection Hd as <- <- <-. reflexivity.
Qed.
Print Assumptions C42_injection_refuted.
