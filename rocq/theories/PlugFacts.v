(** What plugin lines do to the plugin metrics, compliant processor. *)
From Verif Require Import Base StrFacts Num Env Stats Glob Metrics Gen Processor
  LineSpec LineFacts FloatFacts ProcFacts ProcSpec ReceiveFacts ReceiveFacts2.

Section plug.
Context `{NN : Num} {NL : NumLaw NN} (E : env) (plugins : list factory).
Notation C := (mp_cls E plugins).
Notation receive := (receive E plugins).

Lemma plug_one m t raw fields (s : mst) f : decode m = Some (t, raw, fields) -> ~ builtin t ->
  plugin_table plugins !! t = Some f ->
  let key := normalize_key raw in
  let w1 := snd (now E (p_w s)) in
  p_plug (receive m s) !! key =
  match p_plug s !! key with
  | Some p => Some (fst (fst (plug_process E p fields w1)))
  | None => match build_metric E f (B "stats." ++ factory_name f) key w1 with
            | (Ok q, w2) => Some (fst (fst (plug_process E q fields w2)))
            | (Exn _, _) => None
            end
  end.
Proof.
  intros Hd Hb Hf key w1. unfold ReceiveFacts.receive. rewrite process_proj by apply proj_plug. rewrite Hd.
  assert (known_type C t = true) as -> by (apply known_type_iff; right; eauto).
  destruct (decode_cons _ _ _ _ Hd) as (f0 & l & ->).
  fold key. fold w1. clearbody w1. set (s1 := set_w w1 s).
  assert (Hh : handler E C m t key (f0 :: l) s1 = process_plugin_metric E C t key (f0 :: l) s1).
  { unfold handler. rewrite builtin_bool in Hb.
    destruct (str_eqb t (B "c")); [exfalso; auto|]. destruct (str_eqb t (B "ms")); [exfalso; auto|].
    destruct (str_eqb t (B "g")); [exfalso; auto|]. destruct (str_eqb t (B "m")); [exfalso; auto|]. reflexivity. }
  rewrite Hh. unfold process_plugin_metric. unM.
  destruct (p_plug s !! key) as [p|] eqn:Ep; cbn.
  - rewrite Ep. destruct (plug_process E p (f0 :: l) _) as [[p' r] w']. cbn. rewrite lookup_insert. reflexivity.
  - rewrite Hf. change (p_w s1) with w1. change (list_ascii_of_string "stats.") with (B "stats.").
    cbn [mp_cls c_prefix].
    destruct (build_metric E f (B "stats." ++ factory_name f) key w1) as [[q|e] w']; cbn.
    + rewrite lookup_insert. destruct (plug_process E q (f0 :: l) w') as [[p' r] w'']. cbn.
      rewrite lookup_insert. reflexivity.
    + exact Ep.
Qed.

(** the class of a plugin metric *)
Definition is_sli (p : plug) : bool := match p with PSli _ => true | PDist _ => false end.
Lemma plug_process_kind p fields w : is_sli (fst (fst (plug_process E p fields w))) = is_sli p.
Proof.
  destruct p as [x|d]; cbn.
  - destruct (sli_process x fields). reflexivity.
  - destruct (dmetric_process E d fields w) as [[d' r] w']. reflexivity.
Qed.

(** a line of any plugin type goes to the metric that already has the name *)
Lemma plug_first_use m t key fields (s : mst) p :
  typed_line m t key fields -> ~ builtin t -> is_Some (plugin_table plugins !! t) ->
  p_plug s !! key = Some p ->
  exists p', p_plug (receive m s) !! key = Some p' /\ is_sli p' = is_sli p /\
    forall x, p = PSli x -> p' = PSli (fst (sli_process x fields)).
Proof.
  intros Hl Hb [f Hf] Hp. apply typed_line_decode in Hl. destruct Hl as (raw & Hd & <-).
  pose proof (plug_one m t raw fields s f Hd Hb Hf) as H. cbn zeta in H. rewrite Hp in H.
  eexists. split; [exact H|]. split; [apply plug_process_kind|].
  intros x ->. cbn. destruct (sli_process x fields). reflexivity.
Qed.
End plug.
