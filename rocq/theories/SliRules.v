(** From the rules of a configuration file to the conditions of a metric. *)
From Verif Require Import Base StrFacts Num Env Stats Glob GlobFacts Metrics Gen Processor Configurable LineSpec
  SliConfig SliFacts Process RouterSpec ProcessSpec Service ServiceSpec ServiceFacts SendFacts Plugins.

(** ** What the options say *)
(** the rules a command line and the files stand for *)
Inductive rules_given (files : str -> list section) (args : list (flag * str)) : option str -> Prop :=
| rg_no_file : config_path args None -> rules_given files args None
| rg_no_section path : config_path args (Some path) -> (forall items, ~ In (B "plugin_sli", items) (files path)) -> rules_given files args None
| rg_section path items : config_path args (Some path) -> In (B "plugin_sli", items) (files path) ->
    rules_given files args (last (map snd (List.filter (fun e => str_eqb (fst e) (B "rules")) items))).

Lemma section_get_last items n : section_get items n = last (map snd (List.filter (fun e => str_eqb (fst e) n) items)).
Proof.
  induction items as [|[k v] items IH]; [reflexivity|]. cbn [section_get List.filter fst]. rewrite IH.
  destruct (str_eqb k n); [|destruct (last _); reflexivity]. cbn [map snd]. rewrite last_cons. destruct (last _); reflexivity.
Qed.
Lemma plugin_absent files args o n : well_formed files -> parse_options files args = Ok o -> B "plugin_" `prefix_of` n ->
  (config_path args None \/ exists path, config_path args (Some path) /\ forall items, ~ In (n, items) (files path)) -> o !! n = None.
Proof.
  intros Hw H Hp Hor. apply starts_prefix in Hp. pose proof (plugin_no_kind n Hp) as Hk.
  unfold parse_options in H. destruct (forallb _ args); [|discriminate].
  change (fun o '(f, v) => match flag_name f with Some n => set_option UsageError n v o | None => Ok o end) with arg_step in H.
  destruct (rfold arg_step args options_init) as [o1|e] eqn:E; cbn [rbind] in H; [|discriminate].
  assert (H0 : options_init !! n = None).
  { destruct (options_init !! n) as [x|] eqn:Ex; [|reflexivity]. exfalso. unfold options_init in Ex.
    apply elem_of_list_to_map_2 in Ex. apply elem_of_list_fmap in Ex as ([[[n' c] d] k] & [= <- <-] & Hin).
    apply elem_of_list_In in Hin. rewrite (table_plugin _ _ _ _ Hin) in Hp. discriminate. }
  assert (H1 : o1 !! n = None).
  { apply (rfold_keeps arg_step (fun o => o !! n = None) args) with (s := options_init); [|exact H0|exact E].
    intros s [f v] s' _ Hs Ha. unfold arg_step in Ha. destruct (flag_name f) as [m|]; [|inversion Ha; subst; exact Hs].
    rewrite (set_other _ _ _ _ _ _ Ha Hk). exact Hs. }
  assert (Hu : upto (concat (map arg_tr args)) o1) by exact (rfold_upto arg_step arg_tr args (fun tr a o o' => arg_upto tr a o o') [] _ _ upto_init E).
  destruct (config_at args o1 Hu) as (x & Hx & [[-> Hc']|(p' & -> & Hc')]); rewrite Hx in H; [inversion H; subst; exact H1|].
  destruct Hor as [Hc|(path & Hc & Hno)]; pose proof (config_path_fun _ _ _ Hc Hc') as Ep; inversion Ep; subst p'.
  clear H0 E Hu. unfold configure in H. destruct (find_section (B "statsd") (files path)) as [i0|]; [|discriminate].
  destruct (coerce_items _ i0 o1) as [o2|e] eqn:E2; cbn [rbind] in H; [|discriminate].
  match type of H with rfold ?f ?l o2 = _ => change (rfold (sec_step (map (fun '(fl, _) => flag_text fl) args)) l o2 = Ok o) in H end.
  apply (rfold_keeps (sec_step (map (fun '(f, _) => flag_text f) args)) (fun o => o !! n = None) (sec_sort (files path))) with (s := o2); [| |exact H].
  - intros s [m items] s' Hin Hs Hst. rewrite (sec_other _ _ _ _ _ Hst Hk); [exact Hs|]. cbn [fst]. intros ->.
    apply (Hno items). eapply Permutation_in; [apply sec_sort_perm|exact Hin].
  - rewrite (items_other _ _ _ _ _ E2 Hk). exact H1.
Qed.

Section rules.
Context {NN : Num}.
(** ** What is configured *)
Definition rule_lines (text : str) : list str := split_on c_nl (strip text).
(** the rules in force after the texts were configured one after the other, in one
    process: a text is taken up to its first bad line *)
Inductive installed : list (option str) -> list str -> Prop :=
| in_none : installed [] []
| in_absent ts ls : installed ts ls -> installed (ts ++ [None]) ls
| in_taken ts ls text : installed ts ls -> Forall good (rule_lines text) -> installed (ts ++ [Some text]) (ls ++ rule_lines text)
| in_refused ts ls text before line after : installed ts ls -> rule_lines text = before ++ line :: after -> Forall good before -> ~ good line ->
    installed (ts ++ [Some text]) (ls ++ before).
(** the configuration has exactly the rules *)
Definition holds (cfg : sconfig) (ls : list str) : Prop :=
  heads_ok cfg /\ forall h l e, entry cfg h l = Some e <-> last_rule ls h l e.

Lemma last_rule_app ls new h l e : last_rule (ls ++ new) h l e <->
  last_rule new h l e \/ (last_rule ls h l e /\ forall ln e', In ln new -> ~ rule ln h l e').
Proof.
  induction ls as [|x ls IH]; cbn [app].
  - split; [auto|]. intros [H|[H _]]; [exact H|inversion H].
  - split.
    + intros H. inversion H as [? ? ? ? ? Hr Hno|? ? ? ? ? Hl]; subst.
      * right. split; [constructor; [exact Hr|]|]; intros ln e' Hin; apply Hno, in_or_app; auto.
      * apply IH in Hl as [Hl|[Hl Hno]]; [auto|]. right. split; [constructor 2; exact Hl|exact Hno].
    + intros [H|[H Hno]]; [constructor 2; apply IH; auto|].
      inversion H as [? ? ? ? ? Hr Hn|? ? ? ? ? Hl]; subst.
      * constructor; [exact Hr|]. intros ln e' Hin. apply in_app_or in Hin as [Hin|Hin]; auto.
      * constructor 2. apply IH. auto.
Qed.
Lemma rules_dec ls h l : (exists e, last_rule ls h l e) \/ (forall ln e, In ln ls -> ~ rule ln h l e).
Proof.
  induction ls as [|y ls IH]; [right; intros ln e []|]. destruct IH as [[e He]|Hn]; [left; exists e; constructor 2; exact He|].
  destruct (rule_dec y h l) as [[e He]|Hy]; [left; exists e; constructor; [exact He|exact Hn]|]. right.
  intros ln e [->|Hin] Hr; [apply Hy; eauto|exact (Hn _ _ Hin Hr)].
Qed.
Lemma holds_empty : holds ∅ [].
Proof.
  split; [intros h [x Hx]; rewrite lookup_empty in Hx; discriminate|]. intros h l e. unfold entry. rewrite lookup_empty.
  split; [discriminate|intros H; inversion H].
Qed.
Lemma holds_more cfg cfg' ls new : holds cfg ls -> Forall good new -> heads_ok cfg' ->
  (exists c1, configure_rules cfg new = (c1, Ok tt) /\ forall h l, entry cfg' h l = entry c1 h l) -> holds cfg' (ls ++ new).
Proof.
  intros [_ He] Hg Hh (c1 & Hc & Hs). split; [exact Hh|]. intros h l e. rewrite Hs.
  destruct (configure_rules_good new Hg cfg) as (c & Hc' & Hk). rewrite Hc in Hc'. injection Hc' as <-. destruct (Hk h l) as [H1 H2].
  rewrite last_rule_app. destruct (rules_dec new h l) as [[e' He']|Hn].
  - rewrite (H1 _ He'). split.
    + intros [= ->]. left. exact He'.
    + intros [H|[_ Hno]]; [f_equal; exact (last_rule_fun _ _ _ _ _ He' H)|]. apply last_rule_in in He' as (ln & Hin & Hr). exfalso. exact (Hno _ _ Hin Hr).
  - assert (Hz : forall e', ~ last_rule new h l e') by (intros e' Hl; apply last_rule_in in Hl as (ln & Hin & Hr); exact (Hn _ _ Hin Hr)).
    rewrite (H2 Hz), He. split; [auto|]. intros [H|[H _]]; [exfalso; exact (Hz _ H)|exact H].
Qed.
(** a configuration, and what becomes of it *)
Lemma configure_holds cfg ts ls r : installed ts ls -> holds cfg ls ->
  exists ls', installed (ts ++ [r]) ls' /\ holds (fst (sli_configure cfg r)) ls' /\
    (snd (sli_configure cfg r) = Ok tt <-> ls' = ls ++ match r with Some text => rule_lines text | None => [] end).
Proof.
  intros Hi Hh. destruct r as [text|]; cbn [sli_configure].
  2: { exists ls. split; [constructor; exact Hi|]. split; [exact Hh|]. rewrite app_nil_r. tauto. }
  fold (rule_lines text). pose proof (configure_heads (rule_lines text) cfg (proj1 Hh)) as Hhd.
  destruct (first_bad (rule_lines text)) as [Hg|(b & l & a & Es & Hg & Hb)].
  - exists (ls ++ rule_lines text). split; [constructor; assumption|]. destruct (configure_rules_good _ Hg cfg) as (c & Hc & _).
    rewrite Hc in *. cbn [fst snd] in *. split; [|tauto]. apply (holds_more cfg c ls _ Hh Hg Hhd). exists c. auto.
  - exists (ls ++ b). split; [econstructor; eassumption|]. destruct (configure_rules_bad b l a cfg Hg Hb) as (c1 & c2 & e & H1 & H2 & _ & _ & H3).
    rewrite Es, H2 in *. cbn [fst snd] in *. split.
    + apply (holds_more cfg c2 ls b Hh Hg Hhd). exists c1. auto.
    + split; [discriminate|]. intros H. apply app_inv_head in H. apply (f_equal length) in H. rewrite app_length in H. cbn in H. lia.
Qed.
Lemma installed_all ts : exists ls, installed ts ls /\ holds (fold_left (fun c r => fst (sli_configure c r)) ts ∅) ls.
Proof.
  induction ts as [|r ts (ls & Hi & Hh)] using rev_ind; [exists []; split; [constructor|apply holds_empty]|].
  rewrite fold_left_app. destruct (configure_holds _ _ _ r Hi Hh) as (ls' & Hi' & Hh' & _). exists ls'. auto.
Qed.
Lemma installed_fun ts ls ls' : installed ts ls -> installed ts ls' -> ls = ls'.
Proof.
  intros H. revert ls'. induction H as [|ts ls H IH|ts ls text H IH Hg|ts ls text b l a H IH Es Hg Hb]; intros ls' H'.
  - inversion H' as [| | |? ? ? ? ? ? ? ? ? ? Hx]; [reflexivity|..]; destruct ts; discriminate.
  - inversion H' as [Hx|ts' ? ? Hx|ts' ? ? ? ? Hx|ts' ? ? ? ? ? ? ? ? ? Hx]; subst; try (apply app_inj_tail in Hx as [-> Hx]; try discriminate); auto; destruct ts; discriminate.
  - inversion H' as [Hx|ts' ? ? Hx|ts' ? ? ? ? Hx|ts' ? ? ? ? ? ? Es' Hg' Hb' Hx]; subst; try (apply app_inj_tail in Hx as [-> Hx]; try discriminate); try (destruct ts; discriminate).
    + injection Hx as ->. f_equal. auto.
    + injection Hx as ->. exfalso. rewrite Es' in Hg. apply Forall_app in Hg as [_ Hg]. inversion Hg; contradiction.
  - inversion H' as [Hx|ts' ? ? Hx|ts' ? ? ? Hg' Hx|ts' ? ? b' l' a' ? Es' Hg' Hb' Hx]; subst; try (apply app_inj_tail in Hx as [-> Hx]; try discriminate); try (destruct ts; discriminate).
    + injection Hx as ->. exfalso. rewrite Es in Hg'. apply Forall_app in Hg' as [_ Hg']. inversion Hg'; contradiction.
    + injection Hx as ->. f_equal; [auto|]. rewrite Es in Es'. clear -Es' Hg Hb Hg' Hb'. revert b' Es' Hg'. induction b as [|x b IH]; intros [|y b'] Es' Hg'; cbn in *.
      * reflexivity.
      * injection Es' as -> _. inversion Hg'; contradiction.
      * injection Es' as -> _. inversion Hg; contradiction.
      * injection Es' as -> Es'. inversion Hg; inversion Hg'; subst. f_equal. auto.
Qed.

(** ** Conditions *)
Definition config_of (cfg : sconfig) (ks : list str) : list (str * gmap str cond) :=
  flat_map (fun k => match cfg !! k with Some m => [(k, omap only_cond m)] | None => [] end) ks.
Lemma factory_config cfg ks : sli_factory cfg ks = FSli (config_of cfg ks). Proof. reflexivity. Qed.
Lemma holds_conditions cfg ls ks path : holds cfg ls -> ks ≡ₚ (map_to_list cfg).*1 ->
  exists cs, sli_conditions path (config_of cfg ks) ∅ = Ok cs /\
    forall label,
      (forall c, cs !! label = Some c -> SliFacts.applies ls path label c) /\
      ((exists c, SliFacts.applies ls path label c) -> cs !! label <> None).
Proof.
  intros [Hh He] Hks. set (config := config_of cfg ks).
  assert (Hin : forall h m, In (h, m) config <-> exists m0, cfg !! h = Some m0 /\ m = omap only_cond m0).
  { intros h m. unfold config, config_of. rewrite in_flat_map. split.
    - intros (k & Hk & Hx). destruct (cfg !! k) as [m0|] eqn:Ek; [|destruct Hx]. destruct Hx as [[= <- <-]|[]]. eauto.
    - intros (m0 & Hm0 & ->). exists h. split.
      + apply elem_of_list_In. rewrite Hks. apply elem_of_list_fmap. exists (h, m0). split; [reflexivity|]. apply elem_of_map_to_list. exact Hm0.
      + rewrite Hm0. left. reflexivity. }
  assert (Hf : Forall (fun hc : str * gmap str cond => ~ In "["%char (fst hc)) config).
  { apply Forall_forall. intros [h m] Hx. apply elem_of_list_In in Hx. apply Hin in Hx as (m0 & Hm0 & _). apply Hh. eauto. }
  destruct (sli_conditions_spec path config Hf ∅) as (cs & Hcs & Hk). exists cs. split; [exact Hcs|].
  assert (Hlook : forall h l c, (exists m, In (h, m) config /\ m !! l = Some c) <-> last_rule ls h l (CCond c)).
  { intros h l c. rewrite <- He. unfold entry. split.
    - intros (m & Hm & Hl). apply Hin in Hm as (m0 & Hm0 & ->). rewrite lookup_omap in Hl. rewrite Hm0.
      destruct (m0 !! l) as [[c'|]|]; try discriminate. cbn in Hl. congruence.
    - intros Hl. destruct (cfg !! h) as [m0|] eqn:Em; [|discriminate]. exists (omap only_cond m0).
      split; [apply Hin; eauto|]. rewrite lookup_omap, Hl. reflexivity. }
  intros label. destruct (Hk label) as [H1 H2]. split.
  - intros c Hc'. destruct (H1 c Hc') as [H|(h & m & Hm & Hd & Hl)]; [rewrite lookup_empty in H; discriminate|]. exists h. split; [exact Hd|].
    apply Hlook. eauto.
  - intros (c & h & Hd & Hl). apply H2. right. apply Hlook in Hl as (m & Hm & Hl). exists h, m. split; [exact Hm|]. split; [exact Hd|congruence].
Qed.
Lemma holds_dots cfg ls ks : holds cfg ls -> Forall (fun hm : str * gmap str cond => forall l, is_Some (snd hm !! l) -> ~ In "."%char l) (config_of cfg ks).
Proof.
  intros [_ He]. apply Forall_forall. intros [h m] Hx. apply elem_of_list_In in Hx. unfold config_of in Hx. apply in_flat_map in Hx as (k & _ & Hx).
  destruct (cfg !! k) as [m0|] eqn:Ek; [|destruct Hx]. destruct Hx as [[= <- <-]|[]]. intros l [c Hl]. cbn [snd] in Hl. rewrite lookup_omap in Hl.
  destruct (m0 !! l) as [e|] eqn:El; [|discriminate]. assert (Hent : entry cfg k l = Some e) by (unfold entry; rewrite Ek; exact El).
  apply He, last_rule_in in Hent as (ln & _ & c' & t & ps & (_ & _ & [_ Hf] & _) & _). intros Hin.
  rewrite Forall_forall in Hf. specialize (Hf _ (proj2 (elem_of_list_In _ _) Hin)). apply has_In in Hf. vm_compute in Hf. discriminate.
Qed.

(** ** The loop over the plugins *)
Lemma stock_sli files args o cfg r : well_formed files -> parse_options files args = Ok o -> rules_given files args r ->
  stock_configure StockSli o cfg = sli_configure cfg r.
Proof.
  intros Hw Ho Hr. cbn [stock_configure]. destruct Hr as [Hc|path Hc Hno|path items Hc Hin].
  - rewrite (plugin_absent files args o _ Hw Ho); [reflexivity|eexists; reflexivity|auto].
  - rewrite (plugin_absent files args o _ Hw Ho); [reflexivity|eexists; reflexivity|eauto].
  - rewrite (plugin_sections files args o path _ items Hw Ho Hc Hin); [|eexists; reflexivity]. rewrite section_get_last. reflexivity.
Qed.
Lemma loop_sli files args o cfg r ps : well_formed files -> parse_options files args = Ok o -> rules_given files args r ->
  ps ≡ₚ [StockSli; StockDistinct] -> configure_plugins ps o cfg = sli_configure cfg r.
Proof.
  intros Hw Ho Hr Hp. pose proof (stock_sli files args o cfg r Hw Ho Hr) as Hs.
  assert (H : ps = [StockSli; StockDistinct] \/ ps = [StockDistinct; StockSli]).
  { clear -Hp. symmetry in Hp. apply Permutation_length_2_inv in Hp. exact Hp. }
  destruct H as [-> | ->]; cbn [configure_plugins]; [rewrite Hs|change (stock_configure StockDistinct o cfg) with (cfg, Ok tt : res unit); cbv iota; rewrite Hs];
    destruct (sli_configure cfg r) as [c [[]|e]]; reflexivity.
Qed.
Lemma stock_table ps cfg ks : ps ≡ₚ [StockSli; StockDistinct] ->
  plugin_table (stock_factories ps cfg ks) !! B "sli" = Some (FSli (config_of cfg ks)) /\
  plugin_table (stock_factories ps cfg ks) !! B "pd" = Some FDistinct /\
  forall t f, plugin_table (stock_factories ps cfg ks) !! t = Some f -> t = B "sli" \/ t = B "pd".
Proof.
  intros Hp.
  assert (H : ps = [StockSli; StockDistinct] \/ ps = [StockDistinct; StockSli]).
  { clear -Hp. symmetry in Hp. apply Permutation_length_2_inv in Hp. exact Hp. }
  assert (Hx : forall t f (m : gmap str factory), m = <[B "sli" := FSli (config_of cfg ks)]> (<[B "pd" := FDistinct]> ∅) \/
    m = <[B "pd" := FDistinct]> (<[B "sli" := FSli (config_of cfg ks)]> ∅) -> m !! t = Some f -> t = B "sli" \/ t = B "pd").
  { intros t f m Hm Ht. destruct (decide (t = B "sli")); [auto|]. destruct (decide (t = B "pd")); [auto|]. exfalso.
    destruct Hm as [-> | ->]; rewrite !lookup_insert_ne, lookup_empty in Ht by congruence; discriminate. }
  destruct H as [-> | ->]; unfold stock_factories, plugin_table; cbn [map fold_left factory_type]; rewrite !factory_config; cbn [factory_type].
  - split; [rewrite lookup_insert_ne by discriminate; apply lookup_insert|]. split; [apply lookup_insert|]. intros t f. apply Hx. auto.
  - split; [apply lookup_insert|]. split; [rewrite lookup_insert_ne by discriminate; apply lookup_insert|]. intros t f. apply Hx. auto.
Qed.
End rules.
