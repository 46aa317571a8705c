(** Histories of received lines, StatsD-compliant processor. *)
From Verif Require Import Base StrFacts Num Env Stats Glob Metrics Gen Processor
  LineSpec LineFacts FloatFacts ProcFacts ProcSpec.

Section facts.
Context `{NN : Num} {NL : NumLaw NN} (E : env) (plugins : list factory).
Notation C := (mp_cls E plugins).

(** Lines handled one after the other; protocol.py:44-47 schedules one call of
    [process] per datagram with callLater, so an exception ends only its own line. *)
Definition receive (m : str) (s : mst) : mst := fst (process E C m s).
Definition receive_all (ms : list str) (s : mst) : mst := fold_left (fun s m => receive m s) ms s.

Lemma mp_frames : cls_frames C.
Proof.
  split; intros; unfold frame; cbn.
  - repeat split; intros; try discriminate; reflexivity.
  - unfold mp_process_counter. destruct fs as [|f0 fs]; [repeat split; intros; try discriminate; reflexivity|].
    destruct (float_of f0); [|repeat split; intros; try discriminate; reflexivity].
    assert (Hc : forall r, frame false true false false false true s (fst (mp_compose_counter k n r s))).
    { intros r. unfold frame, mp_compose_counter. unM. destruct (p_counter s !! k); cbn;
      (destruct (match r with Some t => _ | None => _ end); cbn; [destruct (pydiv _ _); cbn|]);
      repeat split; intros; try discriminate; reflexivity. }
    destruct fs as [|f1 [|f2 [|f3 fs]]]; try apply Hc.
    destruct (rate_match f2); [apply Hc|]. repeat split; intros; try discriminate; reflexivity.
  - repeat split; intros; try discriminate; reflexivity.
  - unfold compose_meter. unM. destruct (p_meter s !! k) eqn:Em; cbn.
    + rewrite Em. repeat split; intros; try discriminate; reflexivity.
    + rewrite lookup_insert. repeat split; intros; try discriminate; reflexivity.
Qed.

(** ** spec-level meaning of decode *)
Lemma typed_line_decode m t key fields :
  typed_line m t key fields <-> exists raw, decode m = Some (t, raw, fields) /\ normalize_key raw = key.
Proof.
  unfold typed_line. split.
  - intros (raw & Hl & Hn & Ht). exists raw. split; [apply decode_Some; auto|apply normalize_key_spec; auto].
  - intros (raw & Hd & Hn). apply decode_Some in Hd as [Hl Ht]. exists raw. split; [auto|split; auto].
    apply normalize_key_spec; auto.
Qed.
Lemma typed_line_fun m t key fields t' key' fields' :
  typed_line m t key fields -> typed_line m t' key' fields' -> t = t' /\ key = key' /\ fields = fields'.
Proof.
  rewrite !typed_line_decode. intros (r & H & <-) (r' & H' & <-). rewrite H in H'. injection H' as <- <- <-. auto.
Qed.
Lemma reads_iff s x : reads s x <-> float_of s = Some x.
Proof.
  unfold reads, float_of. split.
  - intros (l & Hl & ->). apply parse_float_spec in Hl. rewrite Hl. reflexivity.
  - intros H. destruct (parse_float s) as [l|] eqn:Ep; [|discriminate]. injection H as <-.
    exists l. split; [apply parse_float_spec; auto|reflexivity].
Qed.
Lemma float_of_none s : float_of s = None <-> not_a_number s.
Proof. unfold float_of. rewrite <- parse_float_none. destruct (parse_float s); split; intros; try discriminate; auto. Qed.

(** ** counters *)
Definition counter_parts (fields : list str) : option (num * option str) :=
  match fields with
  | [f0; _] => match float_of f0 with Some v => Some (v, None) | None => None end
  | [f0; _; f2] =>
      match float_of f0 with
      | Some v => match rate_match f2 with Some g => Some (v, Some g) | None => None end
      | None => None
      end
  | _ => None
  end.
Definition rate_of (r : option str) : res num :=
  match r with
  | None => Ok n1
  | Some t => match float_of t with Some x => Ok x | None => Exn ValueError end
  end.
Definition counter_add (key : str) (v : num) (r : option str) (cs : gmap str num) : gmap str num * res unit :=
  let cs1 := match cs !! key with Some _ => cs | None => <[key := n0]> cs end in
  match rate_of r with
  | Exn e => (cs1, Exn e)
  | Ok x => if neqb x n0 then (cs1, Exn ZeroDivisionError)
            else (<[key := nadd (default n0 (cs !! key)) (nmul v (ndiv n1 x))]> cs, Ok tt)
  end.
Lemma mp_process_counter_eq key f0 t rest m s :
  length rest = 0%nat \/ length rest = 1%nat ->
  mp_process_counter key (f0 :: t :: rest) m s =
  match counter_parts (f0 :: t :: rest) with
  | Some (v, r) => let '(cs, o) := counter_add key v r (p_counter s) in (set_counter cs s, o)
  | None => fail m s
  end.
Proof.
  intros Hl. unfold mp_process_counter, counter_parts.
  assert (Hc : forall v r, mp_compose_counter key v r s =
     let '(cs, o) := counter_add key v r (p_counter s) in (set_counter cs s, o)).
  { intros v r. unfold mp_compose_counter, counter_add, rate_of, pydiv.
    unM. destruct (p_counter s !! key) eqn:Ek; cbn.
    - destruct r as [g|]; [destruct (float_of g) as [x|]|]; cbn;
        try (destruct s; reflexivity).
      + destruct (neqb x n0); cbn; [destruct s; reflexivity|]. rewrite Ek. reflexivity.
      + destruct (neqb n1 n0); cbn; [destruct s; reflexivity|]. rewrite Ek. reflexivity.
    - destruct r as [g|]; [destruct (float_of g) as [x|]|]; cbn; try reflexivity.
      + destruct (neqb x n0); cbn; [reflexivity|]. rewrite lookup_insert, insert_insert. reflexivity.
      + destruct (neqb n1 n0); cbn; [reflexivity|]. rewrite lookup_insert, insert_insert. reflexivity. }
  destruct rest as [|f2 [|f3 rest]]; simpl in Hl; [| |lia].
  - destruct (float_of f0); [apply Hc|reflexivity].
  - destruct (float_of f0); [|reflexivity]. destruct (rate_match f2); [apply Hc|reflexivity].
Qed.

Lemma handler_mp_counter m key fields s : (length fields = 2 \/ length fields = 3)%nat ->
  handler E C m (B "c") key fields s =
  match counter_parts fields with
  | Some (v, r) => let '(cs, o) := counter_add key v r (p_counter s) in (set_counter cs s, o)
  | None => fail m s
  end.
Proof.
  intros Hl. destruct fields as [|f0 [|t rest]]; simpl in Hl; try lia.
  unfold handler. change (str_eqb (B "c") (B "c")) with true. cbv beta iota. cbn [c_process_counter mp_cls]. rewrite mp_process_counter_eq by lia. reflexivity.
Qed.

Lemma decode_len m t key fields : decode m = Some (t, key, fields) -> (length fields = 2 \/ length fields = 3)%nat.
Proof. intros H. destruct (decode_fields _ _ _ _ H) as (f0 & [->|[f2 ->]]); auto. Qed.

Definition counter_view (m key : str) : option (num * option str) :=
  match decode m with
  | Some (t, raw, fields) =>
      if str_eqb t (B "c") && str_eqb (normalize_key raw) key then counter_parts fields else None
  | None => None
  end.

Lemma counter_step m s key :
  p_counter (receive m s) !! key =
  match counter_view m key with
  | Some (v, r) => fst (counter_add key v r (p_counter s)) !! key
  | None => p_counter s !! key
  end.
Proof.
  unfold receive, counter_view. rewrite process_proj by apply proj_counter.
  destruct (decode m) as [[[t raw] fields]|] eqn:Ed; [|reflexivity].
  destruct (str_eqb t (B "c")) eqn:Et.
  - apply str_eqb_eq in Et; subst t. change (known_type C (B "c")) with true. cbv beta iota.
    rewrite handler_mp_counter by (eapply decode_len; eauto).
    destruct (str_eqb (normalize_key raw) key) eqn:Ek; cbn [andb].
    + apply str_eqb_eq in Ek; subst key. destruct (counter_parts fields) as [[v r]|]; [|reflexivity].
      cbn. destruct (counter_add (normalize_key raw) v r (p_counter s)); reflexivity.
    + apply str_eqb_neq in Ek. destruct (counter_parts fields) as [[v r]|]; [|reflexivity].
      unfold counter_add. cbn.
      destruct (rate_of r) as [x|e]; [destruct (neqb x n0)|]; cbn;
        rewrite ?lookup_insert_ne by auto; try reflexivity;
        destruct (p_counter s !! normalize_key raw); cbn; rewrite ?lookup_insert_ne by auto; reflexivity.
  - cbn [andb]. destruct (known_type C t); [|reflexivity].
    destruct (decode_fields _ _ _ _ Ed) as (f0 & Hfs).
    assert (Hc : exists l, fields = f0 :: l) by (destruct Hfs as [->|[f2 ->]]; eauto). destruct Hc as [l ->].
    pose proof (handler_frame E C mp_frames m t (normalize_key raw) f0 l (set_w (snd (now E (p_w s))) s)) as Hh.
    rewrite Et in Hh. destruct Hh as (_ & Hh & _). rewrite Hh by auto. reflexivity.
Qed.

(** spec-level reading of counter_view *)
Lemma fields_two {A} (l : list A) x : nth_error l 1 = Some x -> length l = 2%nat -> exists a, l = [a; x].
Proof. destruct l as [|a [|b [|c l]]]; simpl; try lia; try discriminate. intros [= ->] _. eauto. Qed.
Lemma fields_three {A} (l : list A) x : nth_error l 1 = Some x -> length l = 3%nat -> exists a b, l = [a; x; b].
Proof. destruct l as [|a [|b [|c [|d l]]]]; simpl; try lia; try discriminate. intros [= ->] _. eauto. Qed.

Lemma counter_view_touch m key : (exists v r, counter_view m key = Some (v, r)) <-> counter_touch m key.
Proof.
  unfold counter_view. split.
  - intros (v & r & H). destruct (decode m) as [[[t raw] fields]|] eqn:Ed; [|discriminate].
    destruct (str_eqb t (B "c") && str_eqb (normalize_key raw) key) eqn:Eb; [|discriminate].
    apply andb_true_iff in Eb as [E1 E2]. apply str_eqb_eq in E1, E2. subst t.
    destruct (decode_fields _ _ _ _ Ed) as (f0 & [->|[f2 ->]]); cbn [counter_parts] in H.
    + destruct (float_of f0) as [x|] eqn:Ef; [|discriminate].
      apply (ct_plain _ _ f0 x).
      * apply typed_line_decode. eauto.
      * apply reads_iff; auto.
    + destruct (float_of f0) as [x|] eqn:Ef; [|discriminate].
      destruct (rate_match f2) as [g|] eqn:Eg; [|discriminate].
      apply (ct_rate _ _ f0 f2 g x).
      * apply typed_line_decode. eauto.
      * apply reads_iff; auto.
      * apply rate_match_spec; auto.
  - intros H. destruct H as [f0 v Hl Hv|f0 f2 run v Hl Hv Hr];
      apply typed_line_decode in Hl as (raw & Hd & Hk); rewrite Hd; cbn [str_eqb];
      rewrite str_eqb_refl, Hk, str_eqb_refl; cbn [andb counter_parts];
      apply reads_iff in Hv; rewrite Hv; [eauto|].
    apply rate_match_spec in Hr. rewrite Hr. eauto.
Qed.
Lemma counter_view_sample m key v r :
  (exists o, counter_view m key = Some (v, o) /\ rate_of o = Ok r /\ (o <> None -> neqb r n0 = false)) <->
  counter_sample m key v r.
Proof.
  unfold counter_view. split.
  - intros (o & H & Ho & Hz). destruct (decode m) as [[[t raw] fields]|] eqn:Ed; [|discriminate].
    destruct (str_eqb t (B "c") && str_eqb (normalize_key raw) key) eqn:Eb; [|discriminate].
    apply andb_true_iff in Eb as [E1 E2]. apply str_eqb_eq in E1, E2. subst t.
    destruct (decode_fields _ _ _ _ Ed) as (f0 & [->|[f2 ->]]); cbn [counter_parts] in H.
    + destruct (float_of f0) as [x|] eqn:Ef; [|discriminate]. injection H as -> <-.
      cbn in Ho. injection Ho as <-. apply (cs_plain _ _ f0).
      * apply typed_line_decode. eauto.
      * apply reads_iff; auto.
    + destruct (float_of f0) as [x|] eqn:Ef; [|discriminate].
      destruct (rate_match f2) as [g|] eqn:Eg; [|discriminate]. injection H as -> <-.
      cbn in Ho. destruct (float_of g) as [y|] eqn:Egf; [|discriminate]. injection Ho as ->.
      apply (cs_rate _ _ f0 f2 g).
      * apply typed_line_decode. eauto.
      * apply reads_iff; auto.
      * apply rate_match_spec; auto.
      * apply reads_iff; auto.
      * apply Hz. discriminate.
  - intros H. destruct H as [f0 v Hl Hv|f0 f2 run v r Hl Hv Hr Hx Hz];
      apply typed_line_decode in Hl as (raw & Hd & Hk); rewrite Hd; cbn [str_eqb];
      rewrite str_eqb_refl, Hk, str_eqb_refl; cbn [andb counter_parts];
      apply reads_iff in Hv; rewrite Hv; [exists None; split; [auto|split; [auto|congruence]]|].
    apply rate_match_spec in Hr. rewrite Hr. exists (Some run). split; [auto|]. apply reads_iff in Hx.
    cbn. rewrite Hx. auto.
Qed.

(** effect of one line on one counter, in spec terms *)
Lemma neq_one : neqb n1 n0 = false. Proof. apply one_not_zero. Qed.

Lemma counter_one m key (s : mst) :
  (exists a, counter_amount key m a /\
             p_counter (receive m s) !! key = Some (nadd (default n0 (p_counter s !! key)) a)) \/
  (counter_touch m key /\ (forall a, ~ counter_amount key m a) /\
             p_counter (receive m s) !! key = Some (default n0 (p_counter s !! key))) \/
  (~ counter_touch m key /\ (forall a, ~ counter_amount key m a) /\
             p_counter (receive m s) !! key = p_counter s !! key).
Proof.
  rewrite counter_step. destruct (counter_view m key) as [[v o]|] eqn:Ev.
  - assert (Ht : counter_touch m key) by (apply counter_view_touch; eauto).
    unfold counter_add. destruct (rate_of o) as [x|e] eqn:Er.
    + destruct (neqb x n0) eqn:Ez.
      * right; left. split; [auto|]. split.
        -- intros a (v' & r' & Hs & _). apply counter_view_sample in Hs as (o' & Ho & Hr & Hz).
           rewrite Ev in Ho. injection Ho as <- <-. rewrite Er in Hr. injection Hr as <-.
           destruct o as [g|]; [rewrite Hz in Ez by discriminate; discriminate|].
           cbn in Er. injection Er as <-. rewrite neq_one in Ez. discriminate.
        -- cbn. destruct (p_counter s !! key) eqn:Ek; cbn; [auto|apply lookup_insert].
      * left. exists (nmul v (ndiv n1 x)). split.
        -- exists v, x. split; [|reflexivity]. apply counter_view_sample. exists o. auto.
        -- cbn. apply lookup_insert.
    + right; left. split; [auto|]. split.
      * intros a (v' & r' & Hs & _). apply counter_view_sample in Hs as (o' & Ho & Hr & Hz).
        rewrite Ev in Ho. injection Ho as <- <-. rewrite Er in Hr. discriminate.
      * cbn. destruct (p_counter s !! key) eqn:Ek; cbn; [auto|apply lookup_insert].
  - right; right. split.
    + intros Ht. apply counter_view_touch in Ht as (v & r & Ht). congruence.
    + split; [|reflexivity]. intros a (v' & r' & Hs & _).
      apply counter_view_sample in Hs as (o' & Ho & _). congruence.
Qed.
Lemma amount_touch m key a : counter_amount key m a -> counter_touch m key.
Proof.
  intros (v & r & Hs & _). apply counter_view_sample in Hs as (o & Ho & _). apply counter_view_touch; eauto.
Qed.
Lemma counter_amount_fun m key a b : counter_amount key m a -> counter_amount key m b -> a = b.
Proof.
  intros (v & r & Hs & ->) (v' & r' & Hs' & ->).
  apply counter_view_sample in Hs as (o & Ho & Hr & _), Hs' as (o' & Ho' & Hr' & _). congruence.
Qed.

Lemma receive_all_cons m ms s : receive_all (m :: ms) s = receive_all ms (receive m s).
Proof. reflexivity. Qed.
Lemma receive_all_app ms ms' s : receive_all (ms ++ ms') s = receive_all ms' (receive_all ms s).
Proof. unfold receive_all. apply fold_left_app. Qed.

Theorem counter_history ms (s : mst) key :
  exists l, picks (counter_amount key) ms l /\
    ((p_counter s !! key = None /\ (forall m, In m ms -> ~ counter_touch m key) /\ l = [] /\
      p_counter (receive_all ms s) !! key = None) \/
     ((is_Some (p_counter s !! key) \/ (exists m, In m ms /\ counter_touch m key)) /\
      p_counter (receive_all ms s) !! key =
        Some (fold_left nadd l (default n0 (p_counter s !! key))))).
Proof.
  revert s. induction ms as [|m ms IH]; intros s.
  - exists []. split; [constructor|]. cbn. destruct (p_counter s !! key) as [x|] eqn:Ek.
    + right. split; [left; eauto|reflexivity].
    + left. repeat split; auto.
  - rewrite receive_all_cons.
    destruct (IH (receive m s)) as (l & Hl & H).
    destruct (counter_one m key s) as [(a & Ha & Hv)|[(Ht & Hna & Hv)|(Ht & Hna & Hv)]]; rewrite Hv in H.
    + exists (a :: l). split; [constructor; auto|]. right. split.
      * right. exists m. split; [left; auto|eapply amount_touch; eauto].
      * destruct H as [(H & _)|(_ & H)]; [discriminate|]. rewrite H. reflexivity.
    + exists l. split; [apply picks_miss; auto|]. right. split.
      * right. exists m. split; [left; auto|auto].
      * destruct H as [(H & _)|(_ & H)]; [discriminate|]. rewrite H. reflexivity.
    + exists l. split; [apply picks_miss; auto|]. destruct H as [(H1 & H2 & H3 & H4)|(H1 & H2)].
      * left. repeat split; auto. intros m' [<-|Hi]; auto.
      * right. split; auto. destruct H1 as [H1|(m' & Hi & Hm')]; auto. right. exists m'. split; [right; auto|auto].
Qed.

(** ** timers, gauges, meters *)
Definition view (t : str) (m key : str) : option num :=
  match decode m with
  | Some (t', raw, f0 :: _) =>
      if str_eqb t' t && str_eqb (normalize_key raw) key then float_of f0 else None
  | _ => None
  end.
Lemma view_iff t m key d : view t m key = Some d <->
  exists f0 fs, typed_line m t key (f0 :: fs) /\ reads f0 d.
Proof.
  unfold view. split.
  - intros H. destruct (decode m) as [[[t' raw] [|f0 fs]]|] eqn:Ed; try discriminate.
    destruct (str_eqb t' t && str_eqb (normalize_key raw) key) eqn:Eb; [|discriminate].
    apply andb_true_iff in Eb as [E1 E2]. apply str_eqb_eq in E1, E2. subst t'.
    exists f0, fs. split; [apply typed_line_decode; eauto|apply reads_iff; auto].
  - intros (f0 & fs & Hl & Hr). apply typed_line_decode in Hl as (raw & Hd & Hk). rewrite Hd.
    rewrite str_eqb_refl, Hk, str_eqb_refl. cbn [andb]. apply reads_iff; auto.
Qed.
Lemma view_none t m key : view t m key = None <->
  (forall d, ~ exists f0 fs, typed_line m t key (f0 :: fs) /\ reads f0 d).
Proof.
  split.
  - intros H d Hd. apply view_iff in Hd. congruence.
  - intros H. destruct (view t m key) as [d|] eqn:Ev; [|reflexivity].
    exfalso. apply (H d). apply view_iff; auto.
Qed.

Lemma decode_cons m t raw fields : decode m = Some (t, raw, fields) -> exists f0 l, fields = f0 :: l.
Proof. intros H. destruct (decode_fields _ _ _ _ H) as (f0 & [->|[f2 ->]]); eauto. Qed.

Lemma timer_one m key (s : mst) :
  p_timer (receive m s) !! key =
  match view (B "ms") m key with
  | Some d => Some (default [] (p_timer s !! key) ++ [d])
  | None => p_timer s !! key
  end.
Proof.
  unfold receive, view. rewrite process_proj by apply proj_timer.
  destruct (decode m) as [[[t raw] fields]|] eqn:Ed; [|reflexivity].
  destruct (decode_cons _ _ _ _ Ed) as (f0 & l & ->).
  destruct (str_eqb t (B "ms")) eqn:Et.
  - apply str_eqb_eq in Et; subst t. change (known_type C (B "ms")) with true. cbv beta iota.
    unfold handler. change (str_eqb (B "ms") (B "c")) with false. change (str_eqb (B "ms") (B "ms")) with true.
    cbv beta iota. unfold process_timer_metric. cbn [andb].
    destruct (float_of f0) as [d|] eqn:Ef; [|destruct (str_eqb (normalize_key raw) key); reflexivity].
    cbn. destruct (str_eqb (normalize_key raw) key) eqn:Ek.
    + apply str_eqb_eq in Ek; subst key. rewrite lookup_insert. reflexivity.
    + apply str_eqb_neq in Ek. apply lookup_insert_ne; auto.
  - cbn [andb]. destruct (known_type C t); [|reflexivity].
    pose proof (handler_frame E C mp_frames m t (normalize_key raw) f0 l (set_w (snd (now E (p_w s))) s)) as Hh.
    rewrite Et in Hh. destruct Hh as (Hh & _). rewrite Hh by auto. reflexivity.
Qed.

Lemma timer_history ms (s : mst) key :
  exists l, picks (fun m => timer_sample m key) ms l /\
    p_timer (receive_all ms s) !! key =
      match p_timer s !! key, l with
      | None, [] => None
      | o, _ => Some (default [] o ++ l)
      end.
Proof.
  revert s. induction ms as [|m ms IH]; intros s.
  - exists []. split; [constructor|]. cbn. destruct (p_timer s !! key); [cbn; rewrite app_nil_r|]; reflexivity.
  - rewrite receive_all_cons. destruct (IH (receive m s)) as (l & Hl & H). rewrite timer_one in H.
    destruct (view (B "ms") m key) as [d|] eqn:Ev.
    + exists (d :: l). split; [constructor; [apply view_iff; auto|auto]|]. rewrite H. cbn.
      destruct (p_timer s !! key); cbn; rewrite <- ?app_assoc; reflexivity.
    + exists l. split; [|exact H]. apply picks_miss; [|auto]. apply view_none; auto.
Qed.

(** no ':' in the text of a number *)
Lemma float_no_colon s v : float_text s v -> ~ In ":"%char s.
Proof.
  assert (Hws : forall l, all_in ws_chars l -> ~ In ":"%char l).
  { intros l Hl Hi. apply Hl in Hi. apply is_space_iff in Hi. discriminate. }
  assert (Hdig : forall l n, digits_of l n -> ~ In ":"%char l).
  { intros l n Hd Hi. apply digits_of_iff in Hd as [Hd _]. rewrite forallb_forall in Hd. apply Hd in Hi. discriminate. }
  assert (Hsg : forall l n, sign_of l n -> ~ In ":"%char l).
  { intros l n Hs. inversion Hs; subst; simpl; intuition discriminate. }
  assert (Hex : forall l n, exp_of l n -> ~ In ":"%char l).
  { intros l n He. inversion He as [|e sg neg t x Hee Hg Hne Hd]; subst; [auto|].
    simpl. rewrite in_app_iff. intros [->|[Hi|Hi]]; [destruct Hee; discriminate|exact (Hsg _ _ Hg Hi)|exact (Hdig _ _ Hd Hi)]. }
  assert (Hwd : forall l w, word l w -> forallb is_lower w = true -> ~ In ":"%char l).
  { intros l w Hw Hl Hi. apply word_iff in Hw; [|auto].
    apply (in_map to_lower) in Hi. rewrite Hw in Hi. rewrite forallb_forall in Hl. apply Hl in Hi. discriminate. }
  intros H. destruct H as [l sg neg b r v Hl Hr Hg Hb]. rewrite !in_app_iff.
  intros [Hi|[Hi|[Hi|Hi]]]; [exact (Hws _ Hl Hi)|exact (Hsg _ _ Hg Hi)| |exact (Hws _ Hr Hi)].
  destruct Hb as [b Hw|b Hw|b Hw|ip m ex x Hne Hd He|ip fp m ex x Hne Hd He].
  - exact (Hwd _ _ Hw eq_refl Hi).
  - exact (Hwd _ _ Hw eq_refl Hi).
  - exact (Hwd _ _ Hw eq_refl Hi).
  - rewrite in_app_iff in Hi. destruct Hi as [Hi|Hi]; [exact (Hdig _ _ Hd Hi)|exact (Hex _ _ He Hi)].
  - rewrite !in_app_iff in Hi. destruct Hi as [Hi|[Hi|[Hi|Hi]]].
    + eapply Hdig; [exact Hd|]. apply in_app_iff; auto.
    + simpl in Hi. destruct Hi as [Hi|[]]; discriminate.
    + eapply Hdig; [exact Hd|]. apply in_app_iff; auto.
    + eapply Hex; eauto.
Qed.
Lemma float_one_part f x : float_of f = Some x -> negb (length (split_on ":" f) =? 1)%nat = false.
Proof.
  intros H. apply reads_iff in H as (l & Hl & _). apply float_no_colon in Hl.
  rewrite split_on_word by auto. reflexivity.
Qed.

(** the gauge samples of a line, whatever the name *)
Definition gauge_of (m : str) : list (num * str) :=
  match decode m with
  | Some (t, raw, f0 :: _) =>
      if str_eqb t (B "g") then match float_of f0 with Some v => [(v, normalize_key raw)] | None => [] end
      else []
  | _ => []
  end.
Lemma gauge_of_iff m v key : gauge_of m = [(v, key)] <-> gauge_sample m key v.
Proof.
  unfold gauge_sample. rewrite <- view_iff. unfold gauge_of, view.
  destruct (decode m) as [[[t raw] [|f0 fs]]|]; try (split; discriminate).
  destruct (str_eqb t (B "g")); [|split; discriminate]. cbn [andb].
  destruct (float_of f0) as [x|].
  - destruct (str_eqb (normalize_key raw) key) eqn:Ek.
    + apply str_eqb_eq in Ek; subst. split; congruence.
    + apply str_eqb_neq in Ek. split; congruence.
  - destruct (str_eqb (normalize_key raw) key); split; discriminate.
Qed.
Lemma gauge_of_none m : gauge_of m = [] <-> (forall v key, ~ gauge_sample m key v).
Proof.
  split.
  - intros H v key Hg. apply gauge_of_iff in Hg. congruence.
  - intros H. destruct (gauge_of m) as [|[v k] l] eqn:Eg; [reflexivity|].
    exfalso. apply (H v k). apply gauge_of_iff. rewrite Eg. f_equal.
    revert Eg. unfold gauge_of. destruct (decode m) as [[[t raw] [|f0 fs]]|]; try discriminate.
    destruct (str_eqb t (B "g")); [|discriminate]. destruct (float_of f0); [|discriminate]. congruence.
Qed.
Lemma gauge_one m (s : mst) : p_gauge (receive m s) = p_gauge s ++ gauge_of m.
Proof.
  unfold receive, gauge_of. rewrite process_proj by apply proj_gauge.
  destruct (decode m) as [[[t raw] fields]|] eqn:Ed; [|cbn; rewrite app_nil_r; reflexivity].
  destruct (decode_cons _ _ _ _ Ed) as (f0 & l & ->).
  destruct (str_eqb t (B "g")) eqn:Et.
  - apply str_eqb_eq in Et; subst t. change (known_type C (B "g")) with true. cbv beta iota.
    unfold handler. change (str_eqb (B "g") (B "c")) with false. change (str_eqb (B "g") (B "ms")) with false.
    change (str_eqb (B "g") (B "g")) with true. cbv beta iota. unfold process_gauge_metric.
    destruct (float_of f0) as [d|] eqn:Ef.
    + rewrite (float_one_part _ _ Ef). reflexivity.
    + destruct (negb _); cbn; rewrite app_nil_r; reflexivity.
  - rewrite app_nil_r. destruct (known_type C t); [|reflexivity].
    pose proof (handler_frame E C mp_frames m t (normalize_key raw) f0 l (set_w (snd (now E (p_w s))) s)) as Hh.
    rewrite Et in Hh. destruct Hh as (_ & _ & Hh & _). rewrite Hh by auto. reflexivity.
Qed.
Lemma gauge_history ms (s : mst) :
  exists l, picks (fun m '(v, key) => gauge_sample m key v) ms l /\
            p_gauge (receive_all ms s) = p_gauge s ++ l.
Proof.
  revert s. induction ms as [|m ms IH]; intros s.
  - exists []. split; [constructor|]. cbn. rewrite app_nil_r. reflexivity.
  - rewrite receive_all_cons. destruct (IH (receive m s)) as (l & Hl & H). rewrite gauge_one in H.
    destruct (gauge_of m) as [|[v k] g] eqn:Eg.
    + exists l. rewrite app_nil_r in H. split; [|exact H]. apply picks_miss; [|auto].
      intros [v k]. apply gauge_of_none; auto.
    + assert (g = []) as ->.
      { revert Eg. unfold gauge_of. destruct (decode m) as [[[t raw] [|f0 fs]]|]; try discriminate.
        destruct (str_eqb t (B "g")); [|discriminate]. destruct (float_of f0); [|discriminate]. congruence. }
      exists ((v, k) :: l). split; [apply picks_hit; [apply gauge_of_iff; auto|auto]|].
      rewrite H, <- app_assoc. reflexivity.
Qed.

Lemma meter_one m key (s : mst) :
  p_meter (receive m s) !! key =
  match view (B "m") m key with
  | Some v =>
      Some (match p_meter s !! key with
            | Some me => meter_mark me v
            | None => meter_mark (fst (meter_new E key (B "stats.meter") (snd (now E (p_w s))))) v
            end)
  | None => p_meter s !! key
  end.
Proof.
  unfold receive, view. rewrite process_proj by apply proj_meter.
  destruct (decode m) as [[[t raw] fields]|] eqn:Ed; [|reflexivity].
  destruct (decode_cons _ _ _ _ Ed) as (f0 & l & ->).
  destruct (str_eqb t (B "m")) eqn:Et.
  - apply str_eqb_eq in Et; subst t. change (known_type C (B "m")) with true. cbv beta iota.
    unfold handler. change (str_eqb (B "m") (B "c")) with false. change (str_eqb (B "m") (B "ms")) with false.
    change (str_eqb (B "m") (B "g")) with false.
    change (str_eqb (B "m") (B "m")) with true. cbv beta iota. unfold process_meter_metric. cbn [andb].
    destruct (float_of f0) as [d|] eqn:Ef.
    + rewrite (float_one_part _ _ Ef). cbn [c_compose_meter mp_cls]. unfold compose_meter. unM.
      destruct (p_meter s !! normalize_key raw) as [me|] eqn:Em; cbn.
      * rewrite Em. cbn. destruct (str_eqb (normalize_key raw) key) eqn:Ek.
        -- apply str_eqb_eq in Ek; subst key. rewrite lookup_insert, Em. reflexivity.
        -- apply str_eqb_neq in Ek. apply lookup_insert_ne; auto.
      * rewrite lookup_insert. cbn. destruct (str_eqb (normalize_key raw) key) eqn:Ek.
        -- apply str_eqb_eq in Ek; subst key. rewrite lookup_insert, Em. reflexivity.
        -- apply str_eqb_neq in Ek. rewrite !lookup_insert_ne by auto. reflexivity.
    + destruct (negb _); destruct (str_eqb (normalize_key raw) key); reflexivity.
  - cbn [andb]. destruct (known_type C t); [|reflexivity].
    pose proof (handler_frame E C mp_frames m t (normalize_key raw) f0 l (set_w (snd (now E (p_w s))) s)) as Hh.
    rewrite Et in Hh. destruct Hh as (_ & _ & _ & Hh & _). rewrite Hh by auto. reflexivity.
Qed.
Lemma meter_history ms (s : mst) key :
  exists l, picks (fun m => meter_sample m key) ms l /\
    match p_meter s !! key, l with
    | None, [] => p_meter (receive_all ms s) !! key = None
    | o, _ => exists me, p_meter (receive_all ms s) !! key = Some me /\
        me_value me = fold_left nadd l (match o with Some m0 => me_value m0 | None => n0 end)
    end.
Proof.
  revert s. induction ms as [|m ms IH]; intros s.
  - exists []. split; [constructor|]. cbn. destruct (p_meter s !! key); eauto.
  - rewrite receive_all_cons. destruct (IH (receive m s)) as (l & Hl & H). rewrite meter_one in H.
    destruct (view (B "m") m key) as [v|] eqn:Ev.
    + exists (v :: l). split; [constructor; [apply view_iff; auto|auto]|].
      destruct H as (me & Hme & Hv). destruct (p_meter s !! key) as [m0|]; exists me; split; auto.
    + exists l. split; [apply picks_miss; [apply view_none; auto|auto]|exact H].
Qed.

(** determinism of picks *)
Lemma picks_fun {A} (P : str -> A -> Prop) (HP : forall m a b, P m a -> P m b -> a = b) ms l l' :
  picks P ms l -> picks P ms l' -> l = l'.
Proof.
  intros H. revert l'. induction H as [|m a ms l Ha _ IH|m ms l Hn _ IH]; intros l' H'; inversion H'; subst; auto.
  - f_equal; eauto.
  - exfalso; eapply H1; eauto.
  - exfalso; eapply Hn; eauto.
Qed.
Lemma picks_perm {A} (P : str -> A -> Prop) (HP : forall m a b, P m a -> P m b -> a = b) ms ms' :
  ms ≡ₚ ms' -> forall l l', picks P ms l -> picks P ms' l' -> l ≡ₚ l'.
Proof.
  intros Hp. induction Hp as [|m ms ms' Hp IH|m n ms|ms1 ms2 ms3 Hp1 IH1 Hp2 IH2]; intros l l' Hl Hl'.
  - inversion Hl; inversion Hl'; subst; reflexivity.
  - inversion Hl as [|m0 a ms0 l0 Ha Hl0|m0 ms0 l0 Hn Hl0]; inversion Hl' as [|m1 b ms1 l1 Hb Hl1|m1 ms1 l1 Hn1 Hl1]; subst.
    + rewrite (HP _ _ _ Ha Hb). constructor. auto.
    + exfalso; eapply Hn1; eauto.
    + exfalso; eapply Hn; eauto.
    + auto.
  - inversion Hl as [|? a1 ? ? Ha1 Hl1|? ? ? Hn1 Hl1]; subst;
    inversion Hl1 as [|? a2 ? ? Ha2 Hl2|? ? ? Hn2 Hl2]; subst;
    inversion Hl' as [|? b1 ? ? Hb1 Hk1|? ? ? Hm1 Hk1]; subst;
    inversion Hk1 as [|? b2 ? ? Hb2 Hk2|? ? ? Hm2 Hk2]; subst;
    try (exfalso; match goal with H1 : P ?m _, H2 : forall a, ~ P ?m a |- _ => eapply H2; eauto end);
    rewrite (picks_fun P HP _ _ _ Hl2 Hk2);
    repeat match goal with H1 : P ?m ?a, H2 : P ?m ?b |- _ =>
      lazymatch a with b => fail | _ => rewrite (HP _ _ _ H1 H2) in *; clear H1 end end; try reflexivity.
    apply perm_swap.
  - assert (Hex : exists l2, picks P ms2 l2).
    { clear IH1 IH2 Hp2 Hl'. revert l Hl. induction Hp1 as [|m ms ms' Hp IH|m n ms|ms1 ms2' ms3' Hp1 IH1 Hp2 IH2]; intros l Hl.
      - eauto.
      - inversion Hl as [|? a ? l0 Ha Hl0|? ? l0 Hn Hl0]; subst; destruct (IH _ Hl0) as [k Hk].
        + exists (a :: k). constructor; auto.
        + exists k. apply picks_miss; auto.
      - inversion Hl as [|? a1 ? k1 Ha1 Hl1|? ? k1 Hn1 Hl1]; subst;
        inversion Hl1 as [|? a2 ? k2 Ha2 Hl2|? ? k2 Hn2 Hl2]; subst; eexists;
        repeat first [eapply picks_hit; [eassumption|]|eapply picks_miss; [assumption|]|eassumption].
      - destruct (IH1 _ Hl) as [k Hk]. eauto. }
    destruct Hex as [l2 Hl2]. rewrite (IH1 _ _ Hl Hl2). auto.
Qed.
End facts.
