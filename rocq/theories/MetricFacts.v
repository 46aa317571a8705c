(** What the compliant processor makes of a metric (type, name, fields) that the router hands
    to it, whatever its name: rules may give it any name (router.py:252-266, 300-318). *)
From Verif Require Import Base StrFacts Num Env Stats Glob Metrics Gen GenFacts Processor
  LineSpec LineFacts FloatFacts ProcFacts ProcSpec ReceiveFacts ReceiveFacts2 ReceiveFacts3 PlugFacts
  Sched FlushInv FlushOk SchedFacts StepFacts SysRun Router RouterSpec.

Section facts.
Context `{NN : Num} (E : env) (plugins : list factory).
Notation C := (mp_cls E plugins).

(** processor.process_message(...) as router.py:315-318 calls it *)
Definition handle (m : metric) (s : mst) : mst :=
  fst (process_message E C (text_of m) (fst (fst m)) (snd (fst m)) (snd m) s).
Definition handle_all (ms : list metric) (s : mst) : mst := fold_left (fun s m => handle m s) ms s.
(** the fields of a line: two or three *)
Definition has_fields (m : metric) : Prop := (length (snd m) = 2 \/ length (snd m) = 3)%nat.

Lemma handle_proj {A} (p : mst -> A) t k f0 l (s : mst) : proj_eq E p ->
  p (handle (t, k, f0 :: l) s) =
  if known_type C t then p (fst (handler E C (text_of (t, k, f0 :: l)) t k (f0 :: l) (set_w (snd (now E (p_w s))) s)))
  else p (fst (fail (text_of (t, k, f0 :: l)) s)).
Proof.
  intros [Hp1 Hp2]. unfold handle. cbn [fst snd]. rewrite process_message_handler. unfold now.
  destruct (known_type C t).
  - unfold bnd. set (s1 := set_w _ s). cbn [snd].
    destruct (handler E C _ t k (f0 :: l) s1) as [s2 [u|e]]; cbn [fst snd] in *; [apply Hp1|reflexivity].
  - pose proof (Hp2 (World (S (w_clk (p_w s))) (w_rnd (p_w s)) (w_dict (p_w s)) (w_tbl (p_w s))) (fst (fail (text_of (t, k, f0 :: l)) s))) as H.
    rewrite <- H. unfold fail. unM. reflexivity.
Qed.
Lemma handle_frame t k f0 l (s : mst) :
  (str_eqb t (B "c") = false -> p_counter (handle (t, k, f0 :: l) s) = p_counter s) /\
  (str_eqb t (B "ms") = false -> p_timer (handle (t, k, f0 :: l) s) = p_timer s) /\
  (str_eqb t (B "g") = false -> p_gauge (handle (t, k, f0 :: l) s) = p_gauge s) /\
  (str_eqb t (B "m") = false -> p_meter (handle (t, k, f0 :: l) s) = p_meter s) /\
  (str_eqb t (B "c") || str_eqb t (B "ms") || str_eqb t (B "g") || str_eqb t (B "m") = true ->
     p_plug (handle (t, k, f0 :: l) s) = p_plug s).
Proof.
  pose proof (handler_frame E C (mp_frames E plugins) (text_of (t, k, f0 :: l)) t k f0 l (set_w (snd (now E (p_w s))) s)) as (H1 & H2 & H3 & H4 & H5 & _).
  repeat split; intros H; rewrite handle_proj by (apply proj_counter || apply proj_timer || apply proj_gauge || apply proj_meter || apply proj_plug);
    (destruct (known_type C t); [|reflexivity]).
  - rewrite (H2 H). reflexivity.
  - rewrite (H1 H). reflexivity.
  - rewrite (H3 H). reflexivity.
  - rewrite (H4 H). reflexivity.
  - rewrite H5; [reflexivity|]. rewrite H. reflexivity.
Qed.
Lemma handle_stats m (s : mst) : has_fields m ->
  (p_btype (handle m s) = p_btype s /\ p_ptime (handle m s) = p_ptime s) \/
  exists n x, known_type C (fst (fst m)) = true /\
    p_btype (handle m s) = <[fst (fst m) := n]> (p_btype s) /\ p_ptime (handle m s) = <[fst (fst m) := x]> (p_ptime s).
Proof.
  destruct m as [[t k] fs]. unfold has_fields. cbn [fst snd]. intros Hl. destruct fs as [|f0 l]; [cbn in Hl; lia|].
  unfold handle. cbn [fst snd]. rewrite process_message_handler. unfold now.
  destruct (known_type C t) eqn:Ek; [|left; split; reflexivity].
  unfold bnd. set (s1 := set_w _ s).
  pose proof (handler_frame E C (mp_frames E plugins) (text_of (t, k, f0 :: l)) t k f0 l s1) as Hh.
  destruct (handler E C _ t k (f0 :: l) s1) as [s2 [u|e]]; cbn [fst snd] in *.
  - pose proof (finish_frame E t (e_clock E (w_clk (p_w s))) s2) as Hfin. cbn zeta in Hfin.
    destruct Hfin as (_ & _ & _ & _ & _ & _ & _ & _ & _ & _ & -> & ->).
    destruct Hh as (_ & _ & _ & _ & _ & _ & -> & -> & _). right. do 2 eexists. repeat split; auto.
  - destruct Hh as (_ & _ & _ & _ & _ & _ & -> & -> & _). left. split; reflexivity.
Qed.

Definition mview (m : metric) (key : str) : option (num * option str) :=
  if str_eqb (fst (fst m)) (B "c") && str_eqb (snd (fst m)) key then counter_parts (snd m) else None.
Lemma handle_counter m (s : mst) key : has_fields m ->
  p_counter (handle m s) !! key =
  match mview m key with
  | Some (v, r) => fst (counter_add key v r (p_counter s)) !! key
  | None => p_counter s !! key
  end.
Proof.
  destruct m as [[t k] fs]. unfold has_fields, mview. cbn [fst snd]. intros Hl.
  destruct (str_eqb t (B "c")) eqn:Et; cbn [andb].
  - apply str_eqb_eq in Et; subst t. destruct fs as [|f0 l]; [cbn in Hl; lia|].
    rewrite handle_proj by apply proj_counter. change (known_type C (B "c")) with true. cbv beta iota.
    rewrite handler_mp_counter by exact Hl. destruct (str_eqb k key) eqn:Ek.
    + apply str_eqb_eq in Ek; subst key. destruct (counter_parts (f0 :: l)) as [[v r]|]; [|reflexivity].
      cbn. destruct (counter_add k v r (p_counter s)); reflexivity.
    + apply str_eqb_neq in Ek. destruct (counter_parts (f0 :: l)) as [[v r]|]; [|reflexivity].
      unfold counter_add. cbn.
      destruct (rate_of r) as [x|e]; [destruct (neqb x n0)|]; cbn;
        rewrite ?lookup_insert_ne by auto; try reflexivity;
        destruct (p_counter s !! k); cbn; rewrite ?lookup_insert_ne by auto; reflexivity.
  - destruct fs as [|f0 l]; [cbn in Hl; lia|]. rewrite (proj1 (handle_frame t k f0 l s) Et). reflexivity.
Qed.

(** what is known of each part of the state afterwards *)
Lemma handle_timer m (s : mst) key : has_fields m -> is_Some (p_timer (handle m s) !! key) ->
  is_Some (p_timer s !! key) \/ key = snd (fst m).
Proof.
  destruct m as [[t k] fs]. unfold has_fields. cbn [fst snd]. intros Hl H. destruct fs as [|f0 l]; [cbn in Hl; lia|].
  destruct (decide (key = k)) as [->|Hne]; [auto|]. left.
  destruct (str_eqb t (B "ms")) eqn:Et; [|destruct (handle_frame t k f0 l s) as (_ & Hf & _); rewrite (Hf Et) in H; exact H].
  apply str_eqb_eq in Et; subst t. rewrite handle_proj in H by apply proj_timer. change (known_type C (B "ms")) with true in H.
  unfold handler in H. change (str_eqb (B "ms") (B "c")) with false in H. change (str_eqb (B "ms") (B "ms")) with true in H.
  cbv beta iota in H. unfold process_timer_metric in H. destruct (float_of f0); [|exact H].
  cbn in H. rewrite lookup_insert_ne in H by auto. exact H.
Qed.
Lemma handle_gauge m (s : mst) : has_fields m ->
  p_gauge (handle m s) = p_gauge s \/ exists v, p_gauge (handle m s) = p_gauge s ++ [(v, snd (fst m))].
Proof.
  destruct m as [[t k] fs]. unfold has_fields. cbn [fst snd]. intros Hl. destruct fs as [|f0 l]; [cbn in Hl; lia|].
  destruct (str_eqb t (B "g")) eqn:Et; [|left; destruct (handle_frame t k f0 l s) as (_ & _ & Hf & _); exact (Hf Et)].
  apply str_eqb_eq in Et; subst t. rewrite handle_proj by apply proj_gauge. change (known_type C (B "g")) with true.
  unfold handler. change (str_eqb (B "g") (B "c")) with false. change (str_eqb (B "g") (B "ms")) with false.
  change (str_eqb (B "g") (B "g")) with true. cbv beta iota. unfold process_gauge_metric.
  destruct (negb _); [left; reflexivity|]. destruct (float_of f0) as [d|]; [|left; reflexivity]. right. exists d. reflexivity.
Qed.
Lemma handle_meter m (s : mst) key me : has_fields m -> p_meter (handle m s) !! key = Some me ->
  p_meter s !! key = Some me \/ key = snd (fst m) /\
    ((exists m0 v, p_meter s !! key = Some m0 /\ me = meter_mark m0 v) \/
     exists w v, me = meter_mark (fst (meter_new E key (B "stats.meter") w)) v).
Proof.
  destruct m as [[t k] fs]. unfold has_fields. cbn [fst snd]. intros Hl H. destruct fs as [|f0 l]; [cbn in Hl; lia|].
  destruct (str_eqb t (B "m")) eqn:Et; [|left; destruct (handle_frame t k f0 l s) as (_ & _ & _ & Hf & _); rewrite (Hf Et) in H; exact H].
  apply str_eqb_eq in Et; subst t. rewrite handle_proj in H by apply proj_meter. change (known_type C (B "m")) with true in H.
  unfold handler in H. change (str_eqb (B "m") (B "c")) with false in H. change (str_eqb (B "m") (B "ms")) with false in H.
  change (str_eqb (B "m") (B "g")) with false in H. change (str_eqb (B "m") (B "m")) with true in H.
  cbv beta iota in H. unfold process_meter_metric in H. destruct (negb _); [left; exact H|].
  destruct (float_of f0) as [d|]; [|left; exact H]. cbn [c_compose_meter mp_cls] in H. unfold compose_meter in H. unM.
  destruct (p_meter s !! k) as [m0|] eqn:Em; cbn in H.
  - rewrite Em in H. cbn in H. destruct (decide (key = k)) as [->|Hne].
    + rewrite lookup_insert in H. injection H as <-. right. split; [reflexivity|]. left. eauto.
    + rewrite lookup_insert_ne in H by auto. left. exact H.
  - rewrite lookup_insert in H. cbn in H. destruct (decide (key = k)) as [->|Hne].
    + rewrite lookup_insert in H. injection H as <-. right. split; [reflexivity|]. right.
      eexists (World (S (w_clk (p_w s))) (w_rnd (p_w s)) (w_dict (p_w s)) (w_tbl (p_w s))), d. reflexivity.
    + rewrite !lookup_insert_ne in H by auto. left. exact H.
Qed.
Lemma handle_plug m (s : mst) key p : has_fields m -> p_plug (handle m s) !! key = Some p ->
  p_plug s !! key = Some p \/ key = snd (fst m) /\
    ((exists p0 w, p_plug s !! key = Some p0 /\ p = fst (fst (plug_process E p0 (snd m) w))) \/
     exists f q w w', build_metric E f (B "stats." ++ factory_name f) key w = (Ok q, w') /\
       p = fst (fst (plug_process E q (snd m) w'))).
Proof.
  destruct m as [[t k] fs]. unfold has_fields. cbn [fst snd]. intros Hl H. destruct fs as [|f0 l]; [cbn in Hl; lia|].
  destruct (str_eqb t (B "c") || str_eqb t (B "ms") || str_eqb t (B "g") || str_eqb t (B "m")) eqn:Eb.
  { left. destruct (handle_frame t k f0 l s) as (_ & _ & _ & _ & Hf). rewrite (Hf Eb) in H. exact H. }
  rewrite handle_proj in H by apply proj_plug. destruct (known_type C t); [|left; exact H].
  set (s1 := set_w _ s) in H.
  assert (Hh : handler E C (text_of (t, k, f0 :: l)) t k (f0 :: l) s1 = process_plugin_metric E C t k (f0 :: l) s1).
  { unfold handler. destruct (str_eqb t (B "c")); [discriminate|]. destruct (str_eqb t (B "ms")); [discriminate|].
    destruct (str_eqb t (B "g")); [discriminate|]. destruct (str_eqb t (B "m")); [discriminate|]. reflexivity. }
  rewrite Hh in H. unfold process_plugin_metric in H. unM.
  destruct (p_plug s !! k) as [p0|] eqn:Ep; cbn in H.
  - rewrite Ep in H. destruct (plug_process E p0 (f0 :: l) _) as [[p' r] w'] eqn:Epr. cbn in H.
    destruct (decide (key = k)) as [->|Hne]; [|rewrite lookup_insert_ne in H by auto; left; exact H].
    rewrite lookup_insert in H. injection H as <-. right. split; [reflexivity|]. left. do 2 eexists. split; [exact Ep|]. rewrite Epr. reflexivity.
  - destruct (plugin_table plugins !! t) as [f|]; cbn in H; [|left; exact H].
    change (list_ascii_of_string "stats.") with (B "stats.") in H. cbn [mp_cls c_prefix] in H.
    destruct (build_metric E f _ k _) as [[q|e] w'] eqn:Eq; cbn in H; [|left; exact H].
    rewrite lookup_insert in H. destruct (plug_process E q (f0 :: l) w') as [[p' r] w''] eqn:Epr. cbn in H.
    destruct (decide (key = k)) as [->|Hne]; [|rewrite !lookup_insert_ne in H by auto; left; exact H].
    rewrite lookup_insert in H. injection H as <-. right. split; [reflexivity|]. right. exists f, q. do 2 eexists. split; [exact Eq|]. rewrite Epr. reflexivity.
Qed.

Lemma inv_handle (al : str -> Prop) m (s : mst) : has_fields m -> al (snd (fst m)) -> InvG al s -> InvG al (handle m s).
Proof.
  intros Hm Ha H. split.
  - intros k Hk. rewrite handle_counter in Hk by exact Hm. unfold mview in Hk.
    destruct (str_eqb (fst (fst m)) (B "c") && str_eqb (snd (fst m)) k) eqn:Eb; [|apply (inv_c s H); exact Hk].
    apply andb_prop in Eb as [_ Eb]. apply str_eqb_eq in Eb. subst k. exact Ha.
  - intros k Hk. destruct (handle_timer m s k Hm Hk) as [Hx| ->]; [apply (inv_t s H), Hx|exact Ha].
  - destruct (handle_gauge m s Hm) as [->|[v ->]]; [apply (inv_g s H)|]. apply Forall_app. split; [apply (inv_g s H)|]. constructor; [exact Ha|constructor].
  - intros k me Hk. destruct (handle_meter m s k me Hm Hk) as [Hx|(-> & [(m0 & v & Hm0 & ->)|(w & v & ->)])]; [apply (inv_m s H), Hx|..].
    + apply (inv_m s H) in Hm0 as [_ [H1 H2]]. split; [exact Ha|]. split; exact H1 || exact H2.
    + split; [exact Ha|]. unfold meter_new, now. cbn. split; reflexivity.
  - intros k p Hk. destruct (handle_plug m s k p Hm Hk) as [Hx|(-> & [(p0 & w & Hp & ->)|(f & q & w & w' & Hq & ->)])]; [apply (inv_p s H), Hx|..].
    + split; [exact Ha|]. apply plug_process_named. apply (inv_p s H) in Hp. tauto.
    + split; [exact Ha|]. apply plug_process_named. eapply build_named. exact Hq.
  - intros t Ht. destruct (handle_stats m s Hm) as [[_ Hp]|(n & x & Hk & _ & Hp)]; rewrite Hp in Ht; [apply (inv_ty s H), Ht|].
    destruct (decide (fst (fst m) = t)) as [<-|Hne]; [eapply known_alpha; exact Hk|].
    rewrite lookup_insert_ne in Ht by auto. apply (inv_ty s H), Ht.
  - intros t. destruct (handle_stats m s Hm) as [[Hb Hp]|(n & x & Hk & Hb & Hp)]; rewrite Hp, Hb; [apply (inv_bt s H)|].
    destruct (decide (fst (fst m) = t)) as [<-|Hne]; [rewrite !lookup_insert; split; eauto|].
    rewrite !lookup_insert_ne by auto. apply (inv_bt s H).
Qed.
End facts.
