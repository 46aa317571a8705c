(** What processing one line does to each component of the state. *)
From Verif Require Import Base StrFacts Num Env Stats Glob Metrics Gen Processor LineSpec LineFacts FloatFacts.

(** decoding of a line, as a function *)
Definition decode (message : str) : option (str * str * list str) :=
  match split1 ":" (strip message) with
  | None => None
  | Some (key, data) =>
      let fields := split_on "|" data in
      if (length fields =? 2)%nat || (length fields =? 3)%nat then
        match nth_error fields 1 with
        | Some t => Some (t, key, fields)
        | None => None
        end
      else None
  end.

Lemma decode_Some m t key fields :
  decode m = Some (t, key, fields) <-> line_of m key fields /\ nth_error fields 1 = Some t.
Proof.
  unfold decode. split.
  - destruct (split1 ":" (strip m)) as [[k d]|] eqn:Hs; [|discriminate].
    apply split1_Some in Hs as [Hs Hk].
    destruct ((length (split_on "|" d) =? 2) || (length (split_on "|" d) =? 3))%nat eqn:El; [|discriminate].
    destruct (nth_error (split_on "|" d) 1) as [t'|] eqn:Et; [|discriminate].
    intros [= <- <- <-]. split; [|exact Et].
    split; [|split; [auto|split; [lia|apply split_on_no_sep]]].
    apply stripped_strip. rewrite barred_join. change (B "|") with ["|"%char].
    rewrite join_split_on. exact Hs.
  - intros [(H1 & H2 & H3 & H4) Ht]. apply stripped_strip in H1. rewrite barred_join in H1.
    rewrite H1. change (B ":" ++ join (B "|") fields) with (":"%char :: join (B "|") fields).
    rewrite split1_app by auto. change (B "|") with ["|"%char].
    rewrite split_on_join; [|destruct fields; [discriminate|easy]|auto].
    assert (((length fields =? 2) || (length fields =? 3))%nat = true) as -> by lia.
    rewrite Ht. reflexivity.
Qed.
Lemma decode_None m : decode m = None <-> forall key fields, ~ line_of m key fields.
Proof.
  split.
  - intros H key fields Hl. assert (Hf : exists t, nth_error fields 1 = Some t).
    { destruct Hl as (_ & _ & Hlen & _). destruct fields as [|a [|b l]]; simpl in Hlen; [lia|lia|].
      exists b; reflexivity. }
    destruct Hf as [t Ht]. assert (decode m = Some (t, key, fields)) by (apply decode_Some; auto). congruence.
  - intros H. destruct (decode m) as [[[t k] f]|] eqn:E; [|reflexivity].
    apply decode_Some in E as [E _]. exfalso; eapply H; eauto.
Qed.
Lemma decode_fields m t key fields : decode m = Some (t, key, fields) ->
  exists f0, fields = [f0; t] \/ exists f2, fields = [f0; t; f2].
Proof.
  intros H. apply decode_Some in H as [(_ & _ & Hl & _) Ht].
  destruct fields as [|f0 [|f1 [|f2 [|f3 l]]]]; simpl in *; try lia; injection Ht as ->; eauto.
Qed.

Lemma base_process_decode {S} (bad : str -> M S unit) pm m s :
  base_process bad pm m s =
  match decode m with
  | Some (t, key, fields) => pm m t (normalize_key key) fields s
  | None => bad m s
  end.
Proof.
  destruct (decode m) as [[[t key] fields]|] eqn:E.
  - apply decode_Some in E as [El Et].
    destruct (base_process_line bad pm m key fields s El) as (t' & Ht' & ->). congruence.
  - apply base_process_not_line. apply decode_None; auto.
Qed.

(** case analysis on everything a method depends on *)
Ltac mred := cbn [fst snd] in *; cbv beta iota in *.
Ltac mstep :=
  match goal with
  | |- context [match ?x with _ => _ end] =>
      lazymatch x with
      | context [match _ with _ => _ end] => fail
      | _ => let E := fresh "E" in destruct x eqn:E; try discriminate; cbn in *
      end
  end.
Ltac unM := cbv [bnd ret raise get_ mod_ lift_ time_ fail now] in *; cbn in *.

Section facts.
Context `{NN : Num} (E : env).

Section generic.
Context {TM CM GM : Type} (C : @cls _ TM CM GM).
Notation st := (pst TM CM GM).

Lemma process_decode m (s : st) :
  process E C m s = match decode m with
                    | Some (t, key, fields) => process_message E C m t (normalize_key key) fields s
                    | None => fail m s
                    end.
Proof. apply base_process_decode. Qed.

(** a line is dispatched to a handler iff its type is one of these *)
Definition known_type (t : str) : bool :=
  str_eqb t (B "c") || str_eqb t (B "ms") || str_eqb t (B "g") || str_eqb t (B "m")
  || match c_plugins C !! t with Some _ => true | None => false end.

(** the handler *)
Definition handler (m t key : str) (fields : list str) : M st unit :=
  match fields with
  | [] => raise IndexError
  | f0 :: _ =>
      if str_eqb t (B "c") then c_process_counter C key fields m
      else if str_eqb t (B "ms") then process_timer_metric C key f0 m
      else if str_eqb t (B "g") then process_gauge_metric C key f0 m
      else if str_eqb t (B "m") then process_meter_metric C key f0 m
      else process_plugin_metric E C t key fields
  end.

Lemma process_message_handler m t key f0 fields (s : st) :
  process_message E C m t key (f0 :: fields) s =
  let '(start, w) := now E (p_w s) in
  if known_type t
  then (handler m t key (f0 :: fields) ;! finish_message E t start) (set_w w s)
  else fail m (set_w w s).
Proof.
  unfold process_message, handler, known_type, bnd at 1, time_.
  destruct (now E (p_w s)) as [start w].
  destruct (str_eqb t (B "c")); [reflexivity|].
  destruct (str_eqb t (B "ms")); [reflexivity|].
  destruct (str_eqb t (B "g")); [reflexivity|].
  destruct (str_eqb t (B "m")); [reflexivity|].
  destruct (c_plugins C !! t); reflexivity.
Qed.

(** finish_message only touches the receive statistics and the clock *)
Lemma finish_frame t start (s : st) :
  let s' := fst (finish_message E t start s) in
  snd (finish_message E t start s) = Ok tt /\
  p_timer s' = p_timer s /\ p_counter s' = p_counter s /\ p_gauge s' = p_gauge s /\
  p_meter s' = p_meter s /\ p_plug s' = p_plug s /\ p_bad s' = p_bad s /\ p_info s' = p_info s /\
  p_lfd s' = p_lfd s /\ p_lpd s' = p_lpd s /\
  p_btype s' = <[t := match p_btype s !! t with Some x => x | None => 0 end + 1]> (p_btype s) /\
  p_ptime s' = <[t := nadd (match p_ptime s !! t with Some x => x | None => n0 end)
                           (nsub (e_clock E (w_clk (p_w s))) start)]> (p_ptime s).
Proof.
  unfold finish_message. unM.
  destruct (p_ptime s !! t) eqn:Ept; cbn.
  - repeat split. rewrite Ept. reflexivity.
  - repeat split. rewrite lookup_insert. rewrite insert_insert. reflexivity.
Qed.

(** what the overridable methods may touch *)
Definition frame (timer counter gauge meter plug bad : bool) (s s' : st) : Prop :=
  (timer = false -> p_timer s' = p_timer s) /\ (counter = false -> p_counter s' = p_counter s) /\
  (gauge = false -> p_gauge s' = p_gauge s) /\ (meter = false -> p_meter s' = p_meter s) /\
  (plug = false -> p_plug s' = p_plug s) /\ (bad = false -> p_bad s' = p_bad s) /\
  p_ptime s' = p_ptime s /\ p_btype s' = p_btype s /\
  p_lfd s' = p_lfd s /\ p_lpd s' = p_lpd s /\ p_info s' = p_info s.
Record cls_frames : Prop := {
  fr_timer : forall k d s, frame true false false false false false s (fst (c_compose_timer C k d s));
  fr_counter : forall k fs m s, frame false true false false false true s (fst (c_process_counter C k fs m s));
  fr_gauge : forall k v s, frame false false true false false false s (fst (c_compose_gauge C k v s));
  fr_meter : forall k v s, frame false false false true false false s (fst (c_compose_meter C k v s)) }.

Lemma frame_weaken a b c d e f a' b' c' d' e' f' s s' :
  frame a b c d e f s s' -> implb a a' = true -> implb b b' = true -> implb c c' = true ->
  implb d d' = true -> implb e e' = true -> implb f f' = true -> frame a' b' c' d' e' f' s s'.
Proof.
  unfold frame. intros (H1 & H2 & H3 & H4 & H5 & H6 & H7) A B0 C0 D0 E0 F0.
  destruct a, a', b, b', c, c', d, d', e, e', f, f'; try discriminate; tauto.
Qed.
Lemma fail_frame m s : frame false false false false false true s (fst (@fail _ TM CM GM m s)).
Proof. unfold frame, fail. unM. repeat split; intros; try discriminate; reflexivity. Qed.
Lemma plugin_frame t k fs s :
  frame false false false false true false s (fst (process_plugin_metric E C t k fs s)).
Proof.
  unfold frame, process_plugin_metric. unM.
  destruct (p_plug s !! k) eqn:E1; cbn.
  - rewrite E1. destruct (plug_process E p fs (p_w s)) as [[p' r] w'].
    cbn. repeat split; intros; try discriminate; reflexivity.
  - destruct (c_plugins C !! t) as [f|]; cbn; [|repeat split; intros; try discriminate; reflexivity].
    destruct (build_metric E f (c_prefix C (factory_name f)) k (p_w s)) as [[q|e] w']; cbn;
      [|repeat split; intros; try discriminate; reflexivity].
    rewrite lookup_insert. destruct (plug_process E q fs w') as [[p' r] w''].
    cbn. repeat split; intros; try discriminate; reflexivity.
Qed.

(** which components a message of type [t] may touch *)
Lemma handler_frame (Hf : cls_frames) m t key f0 fields (s : st) :
  frame (str_eqb t (B "ms")) (str_eqb t (B "c")) (str_eqb t (B "g")) (str_eqb t (B "m"))
        (negb (str_eqb t (B "c") || str_eqb t (B "ms") || str_eqb t (B "g") || str_eqb t (B "m"))) true
        s (fst (handler m t key (f0 :: fields) s)).
Proof.
  unfold handler.
  destruct (str_eqb t (B "c")) eqn:Ec; [|destruct (str_eqb t (B "ms")) eqn:Ems;
    [|destruct (str_eqb t (B "g")) eqn:Eg; [|destruct (str_eqb t (B "m")) eqn:Em]]];
    repeat match goal with H : str_eqb _ _ = true |- _ => apply str_eqb_eq in H; subst t end;
    cbn [orb negb].
  - eapply frame_weaken; [apply fr_counter; auto|reflexivity..].
  - unfold process_timer_metric. destruct (float_of f0).
    + eapply frame_weaken; [apply fr_timer; auto|reflexivity..].
    + eapply frame_weaken; [apply fail_frame|reflexivity..].
  - unfold process_gauge_metric. destruct (negb _).
    + eapply frame_weaken; [apply fail_frame|reflexivity..].
    + destruct (float_of f0).
      * eapply frame_weaken; [apply fr_gauge; auto|reflexivity..].
      * eapply frame_weaken; [apply (fail_frame m)|reflexivity..].
  - unfold process_meter_metric. destruct (negb _).
    + eapply frame_weaken; [apply fail_frame|reflexivity..].
    + destruct (float_of f0).
      * eapply frame_weaken; [apply fr_meter; auto|reflexivity..].
      * eapply frame_weaken; [apply (fail_frame m)|reflexivity..].
  - eapply frame_weaken; [apply plugin_frame|reflexivity..].
Qed.

(** ** receive statistics *)
Lemma process_btype (Hf : cls_frames) m (s : st) :
  p_btype (fst (process E C m s)) =
  match decode m with
  | Some (t, _, _) =>
      if known_type t then
        match snd (process E C m s) with
        | Ok _ => <[t := match p_btype s !! t with Some x => x | None => 0 end + 1]> (p_btype s)
        | Exn _ => p_btype s
        end
      else p_btype s
  | None => p_btype s
  end.
Proof.
  rewrite process_decode. destruct (decode m) as [[[t key] fields]|] eqn:Ed; [|reflexivity].
  destruct (decode_fields _ _ _ _ Ed) as (f0 & Hfs).
  assert (Hc : exists l, fields = f0 :: l) by (destruct Hfs as [->|[f2 ->]]; eauto).
  destruct Hc as [l ->]. rewrite process_message_handler. unfold now.
  destruct (known_type t); [|reflexivity].
  unfold bnd. set (s1 := set_w _ s).
  pose proof (handler_frame Hf m t (normalize_key key) f0 l s1) as Hh.
  destruct (handler m t (normalize_key key) (f0 :: l) s1) as [s2 [u|e]]; cbn [fst snd] in *.
  - pose proof (finish_frame t (e_clock E (w_clk (p_w s))) s2) as Hfin. cbn zeta in Hfin.
    destruct Hfin as (-> & _ & _ & _ & _ & _ & _ & _ & _ & _ & -> & _).
    destruct Hh as (_ & _ & _ & _ & _ & _ & _ & -> & _). reflexivity.
  - destruct Hh as (_ & _ & _ & _ & _ & _ & _ & -> & _). reflexivity.
Qed.

(** the components other than statistics, clock *)
Definition proj_eq {A} (p : st -> A) : Prop :=
  (forall t start s, p (fst (finish_message E t start s)) = p s) /\ (forall w s, p (set_w w s) = p s).
Lemma process_proj {A} (p : st -> A) m (s : st) : proj_eq p ->
  p (fst (process E C m s)) =
  match decode m with
  | Some (t, key, fields) =>
      if known_type t then p (fst (handler m t (normalize_key key) fields (set_w (snd (now E (p_w s))) s)))
      else p (fst (fail m s))
  | None => p (fst (fail m s))
  end.
Proof.
  intros [Hp1 Hp2]. rewrite process_decode. destruct (decode m) as [[[t key] fields]|] eqn:Ed; [|reflexivity].
  destruct (decode_fields _ _ _ _ Ed) as (f0 & Hfs).
  assert (Hc : exists l, fields = f0 :: l) by (destruct Hfs as [->|[f2 ->]]; eauto).
  destruct Hc as [l ->]. rewrite process_message_handler. unfold now.
  destruct (known_type t).
  - unfold bnd. set (s1 := set_w _ s). cbn [snd].
    destruct (handler m t (normalize_key key) (f0 :: l) s1) as [s2 [u|e]]; cbn [fst snd] in *.
    + apply Hp1.
    + reflexivity.
  - pose proof (Hp2 (World (S (w_clk (p_w s))) (w_rnd (p_w s)) (w_dict (p_w s)) (w_tbl (p_w s))) (fst (fail m s))).
    rewrite <- H. unfold fail. unM. reflexivity.
Qed.
Ltac fin := split; [intros t start s; pose proof (finish_frame t start s) as F; cbn zeta in F; tauto
                   |reflexivity].
Lemma proj_timer : proj_eq (@p_timer _ TM CM GM). Proof. fin. Qed.
Lemma proj_counter : proj_eq (@p_counter _ TM CM GM). Proof. fin. Qed.
Lemma proj_gauge : proj_eq (@p_gauge _ TM CM GM). Proof. fin. Qed.
Lemma proj_meter : proj_eq (@p_meter _ TM CM GM). Proof. fin. Qed.
Lemma proj_plug : proj_eq (@p_plug _ TM CM GM). Proof. fin. Qed.
Lemma proj_bad : proj_eq (@p_bad _ TM CM GM). Proof. fin. Qed.
Lemma proj_info : proj_eq (@p_info _ TM CM GM). Proof. fin. Qed.

(** the result *)
Lemma process_result m (s : st) :
  snd (process E C m s) =
  match decode m with
  | Some (t, key, fields) =>
      if known_type t then snd (handler m t (normalize_key key) fields (set_w (snd (now E (p_w s))) s))
      else Ok tt
  | None => Ok tt
  end.
Proof.
  rewrite process_decode. destruct (decode m) as [[[t key] fields]|] eqn:Ed; [|reflexivity].
  destruct (decode_fields _ _ _ _ Ed) as (f0 & Hfs).
  assert (Hc : exists l, fields = f0 :: l) by (destruct Hfs as [->|[f2 ->]]; eauto).
  destruct Hc as [l ->]. rewrite process_message_handler. unfold now.
  destruct (known_type t); [|reflexivity].
  unfold bnd. set (s1 := set_w _ s). cbn [snd].
  destruct (handler m t (normalize_key key) (f0 :: l) s1) as [s2 [[]|e]]; cbn [fst snd] in *; [|reflexivity].
  pose proof (finish_frame t (e_clock E (w_clk (p_w s))) s2) as Hfin. cbn zeta in Hfin. tauto.
Qed.

(** both statistics tables get the type of a completed message, or neither changes *)
Lemma process_stats (Hf : cls_frames) m (s : st) :
  (p_btype (fst (process E C m s)) = p_btype s /\ p_ptime (fst (process E C m s)) = p_ptime s) \/
  exists t raw fields n x, decode m = Some (t, raw, fields) /\ known_type t = true /\
    p_btype (fst (process E C m s)) = <[t := n]> (p_btype s) /\
    p_ptime (fst (process E C m s)) = <[t := x]> (p_ptime s).
Proof.
  rewrite process_decode. destruct (decode m) as [[[t key] fields]|] eqn:Ed; [|left; split; reflexivity].
  destruct (decode_fields _ _ _ _ Ed) as (f0 & Hfs).
  assert (Hc : exists l, fields = f0 :: l) by (destruct Hfs as [->|[f2 ->]]; eauto).
  destruct Hc as [l ->]. rewrite process_message_handler. unfold now.
  destruct (known_type t) eqn:Ek; [|left; split; reflexivity].
  unfold bnd. set (s1 := set_w _ s).
  pose proof (handler_frame Hf m t (normalize_key key) f0 l s1) as Hh.
  destruct (handler m t (normalize_key key) (f0 :: l) s1) as [s2 [u|e]]; cbn [fst snd] in *.
  - pose proof (finish_frame t (e_clock E (w_clk (p_w s))) s2) as Hfin. cbn zeta in Hfin.
    destruct Hfin as (_ & _ & _ & _ & _ & _ & _ & _ & _ & _ & -> & ->).
    destruct Hh as (_ & _ & _ & _ & _ & _ & -> & -> & _).
    right. exists t, key, (f0 :: l). do 2 eexists. repeat split; auto.
  - destruct Hh as (_ & _ & _ & _ & _ & _ & -> & -> & _). left. split; reflexivity.
Qed.
Lemma process_durations (Hf : cls_frames) m (s : st) :
  p_lfd (fst (process E C m s)) = p_lfd s /\ p_lpd (fst (process E C m s)) = p_lpd s.
Proof.
  rewrite process_decode. destruct (decode m) as [[[t key] fields]|] eqn:Ed; [|split; reflexivity].
  destruct (decode_fields _ _ _ _ Ed) as (f0 & Hfs).
  assert (Hc : exists l, fields = f0 :: l) by (destruct Hfs as [->|[f2 ->]]; eauto).
  destruct Hc as [l ->]. rewrite process_message_handler. unfold now.
  destruct (known_type t) eqn:Ek; [|split; reflexivity].
  unfold bnd. set (s1 := set_w _ s).
  pose proof (handler_frame Hf m t (normalize_key key) f0 l s1) as Hh.
  destruct (handler m t (normalize_key key) (f0 :: l) s1) as [s2 [u|e]]; cbn [fst snd] in *.
  - pose proof (finish_frame t (e_clock E (w_clk (p_w s))) s2) as Hfin. cbn zeta in Hfin.
    destruct Hfin as (_ & _ & _ & _ & _ & _ & _ & _ & -> & -> & _).
    destruct Hh as (_ & _ & _ & _ & _ & _ & _ & _ & -> & -> & _). split; reflexivity.
  - destruct Hh as (_ & _ & _ & _ & _ & _ & _ & _ & -> & -> & _). split; reflexivity.
Qed.

End generic.
End facts.
