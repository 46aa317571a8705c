(** The lines the client API writes, as the server reads them. *)
From Verif Require Import Base StrFacts Num NumFacts Env Stats Glob Metrics Gen Processor
  LineSpec LineFacts FloatFacts ProcFacts ProcSpec ReceiveFacts ReceiveFacts2 ReceiveFacts3
  ClientMetrics ClientMetricsSpec ClientMetricsFacts ClientMetricsFun.
From Coq Require Import QArith Qcanon.
Open Scope Z_scope.

(** ** integers written and read back *)
Lemma digit_char_ok (d : N) : (d < 10)%N -> is_digit (digit_char d) = true /\ digit_val (digit_char d) = Z.of_N d.
Proof.
  intros H. unfold is_digit, digit_val, digit_char, code. rewrite N_ascii_embedding by lia. split; [|lia].
  apply andb_true_iff. split; lia.
Qed.
Lemma digits_val_app a b : digits_val (a ++ b) = digits_val a * 10 ^ Z.of_nat (length b) + digits_val b.
Proof.
  revert b. induction a as [|c a IH]; intros b; [cbn [app]; change (digits_val []) with 0; lia|].
  cbn [app]. rewrite !digits_val_cons, IH, app_length, Nat2Z.inj_add, Z.pow_add_r by lia. ring.
Qed.
Lemma show_N_ok (n : N) : show_N n <> [] /\ forallb is_digit (show_N n) = true /\ digits_val (show_N n) = Z.of_N n.
Proof.
  unfold show_N.
  assert (H : forall f n, (n < 2 ^ N.of_nat f)%N -> digits_fuel (S f) n <> [] /\
             forallb is_digit (digits_fuel (S f) n) = true /\ digits_val (digits_fuel (S f) n) = Z.of_N n).
  { induction f as [|f IH]; intros m Hm.
    - change (2 ^ N.of_nat 0)%N with 1%N in Hm. assert (m = 0%N) as -> by lia. repeat split; try discriminate; reflexivity.
    - change (digits_fuel (S (S f)) m) with
        (if (m <? 10)%N then [digit_char m] else digits_fuel (S f) (m / 10) ++ [digit_char (m mod 10)]).
      destruct (m <? 10)%N eqn:Em.
      + apply N.ltb_lt in Em. destruct (digit_char_ok m Em) as [H1 H2]. split; [discriminate|]. cbn [forallb].
        rewrite H1. split; [reflexivity|]. rewrite digits_val_cons, H2. cbn. lia.
      + apply N.ltb_ge in Em. destruct (IH (m / 10)%N) as (I1 & I2 & I3).
        { apply N.div_lt_upper_bound; [lia|]. rewrite Nat2N.inj_succ, N.pow_succ_r' in Hm. lia. }
        assert (Hr : (m mod 10 < 10)%N) by (apply N.mod_lt; lia).
        destruct (digit_char_ok _ Hr) as [H1 H2].
        split; [intros Hx; apply app_eq_nil in Hx as [_ Hx]; discriminate|].
        rewrite forallb_app, I2. cbn [forallb]. rewrite H1. split; [reflexivity|].
        rewrite digits_val_app, I3, digits_val_cons, H2.
        pose proof (N.div_mod m 10 ltac:(lia)). change (Z.of_nat (length [digit_char (m mod 10)])) with 1.
        change (digits_val []) with 0. cbn [length]. change (Z.of_nat 0) with 0. lia. }
  apply H. pose proof (N.size_gt n). destruct n as [|p]; [reflexivity|].
  eapply N.lt_le_trans; [exact H0|]. apply N.pow_le_mono_r; [lia|].
  assert (Hs : forall p, N.size (Npos p) = N.of_nat (Pos.size_nat p)).
  { clear. induction p; cbn [N.size Pos.size Pos.size_nat] in *; try injection IHp; intros; lia. }
  rewrite Hs. reflexivity.
Qed.
Lemma show_N_text n : float_text (show_N n) (FDec false (Z.of_N n) 0).
Proof.
  destruct (show_N_ok n) as (H1 & H2 & H3). pose proof (ft [] [] false (show_N n) []) as F.
  rewrite app_nil_r in F. apply F; try (intros c []); [constructor|].
  pose proof (fb_int false (show_N n) (Z.of_N n) [] 0 H1) as G. rewrite app_nil_r in G. apply G; [|constructor].
  apply digits_of_iff. auto.
Qed.
Lemma show_Z_text z : float_text (show_Z z) (FDec (z <? 0) (Z.abs z) 0).
Proof.
  destruct z as [|p|p]; try exact (show_N_text _).
  destruct (show_N_ok (Npos p)) as (H1 & H2 & H3). pose proof (ft [] (B "-") true (show_N (Npos p)) []) as F.
  rewrite app_nil_r in F. apply F; try (intros c []); [constructor|].
  pose proof (fb_int true (show_N (Npos p)) (Zpos p) [] 0 H1) as G. rewrite app_nil_r in G. apply G; [|constructor].
  apply digits_of_iff. auto.
Qed.
(** characters of a number *)
Definition num_chars : str := B "+-.0123456789abcdefghijklmnopqrstuvwxyzABCDEFGHIJKLMNOPQRSTUVWXYZ".
Lemma digits_in s v : digits_of s v -> all_in num_chars s.
Proof.
  intros H. apply digits_of_iff in H as [H _]. intros c Hc. rewrite forallb_forall in H. specialize (H c Hc).
  apply in_bool.
  pose proof (ascii_cases (fun c => implb (is_digit c) (has c num_chars)) ltac:(vm_compute; reflexivity) c) as K.
  cbn beta in K. rewrite H in K. exact K.
Qed.
Lemma float_text_chars s l c : float_text s l -> In c s -> In c ws_chars \/ In c num_chars.
Proof.
  assert (Hw : forall s w, word s w -> Forall (fun c => In c num_chars) w -> all_in num_chars s).
  { intros s0 w Hw. induction Hw as [|a b s0 w Hab Hw IH]; intros Hn c0 Hc; [destruct Hc|].
    inversion Hn as [|? ? Hb Hn']; subst. destruct Hc as [<-|Hc]; [|exact (IH Hn' _ Hc)].
    destruct Hab as [->|[Hl He]]; [exact Hb|].
    apply in_bool.
    pose proof (ascii_cases (fun a => implb ((97 <=? N_of_ascii a + 32)%N && (N_of_ascii a + 32 <=? 122)%N) (has a num_chars))
      ltac:(vm_compute; reflexivity) a) as K. cbn beta in K. rewrite He in K.
    replace ((97 <=? N_of_ascii b) && (N_of_ascii b <=? 122))%N with true in K; [exact K|].
    symmetry. apply andb_true_iff. split; apply N.leb_le; lia. }
  assert (Hex : forall s x, exp_of s x -> all_in num_chars s).
  { intros s0 x He. destruct He as [|e sg neg s0 v He Hsg Hne Hd]; [intros ? []|].
    intros c0 [<-|Hc]; [destruct He as [-> | ->]; apply in_bool; reflexivity|].
    apply in_app_or in Hc as [Hc|Hc]; [|exact (digits_in _ _ Hd _ Hc)].
    destruct Hsg; [destruct Hc| |]; destruct Hc as [<-|[]]; apply in_bool; reflexivity. }
  intros H Hc. destruct H as [l0 sg neg b r v Hl Hr Hs Hb].
  apply in_app_or in Hc as [Hc|Hc]; [left; auto|].
  apply in_app_or in Hc as [Hc|Hc].
  { right. destruct Hs; [destruct Hc| |]; destruct Hc as [<-|[]]; apply in_bool; reflexivity. }
  apply in_app_or in Hc as [Hc|Hc]; [right|left; auto].
  assert (HF : forall w, forallb (fun c => has c num_chars) w = true -> Forall (fun c => In c num_chars) w).
  { intros w Hw0. rewrite forallb_forall in Hw0. apply List.Forall_forall. intros x Hx. apply in_bool. auto. }
  destruct Hb as [s0 Hb|s0 Hb|s0 Hb|ip m ex x Hne Hd He|ip fp m ex x Hne Hd He].
  - exact (Hw _ _ Hb (HF (B "inf") eq_refl) _ Hc).
  - exact (Hw _ _ Hb (HF (B "infinity") eq_refl) _ Hc).
  - exact (Hw _ _ Hb (HF (B "nan") eq_refl) _ Hc).
  - apply in_app_or in Hc as [Hc|Hc]; [exact (digits_in _ _ Hd _ Hc)|exact (Hex _ _ He _ Hc)].
  - pose proof (digits_in _ _ Hd) as Hda.
    apply in_app_or in Hc as [Hc|Hc]; [apply Hda, in_or_app; auto|].
    apply in_app_or in Hc as [Hc|Hc]; [destruct Hc as [<-|[]]; apply in_bool; reflexivity|].
    apply in_app_or in Hc as [Hc|Hc]; [apply Hda, in_or_app; auto|exact (Hex _ _ He _ Hc)].
Qed.
Lemma float_no_bar s l : float_text s l -> ~ In "|"%char s.
Proof.
  intros H Hc. destruct (float_text_chars _ _ _ H Hc) as [K|K]; apply in_bool in K; discriminate.
Qed.
Lemma float_ascii s l c : float_text s l -> In c s -> (N_of_ascii c < 128)%N.
Proof.
  intros H Hc. assert (K : has c (ws_chars ++ num_chars) = true).
  { apply in_bool. apply in_or_app. exact (float_text_chars _ _ _ H Hc). }
  pose proof (ascii_cases (fun c => implb (has c (ws_chars ++ num_chars)) (N_of_ascii c <? 128)%N) ltac:(vm_compute; reflexivity) c) as X.
  cbn beta in X. rewrite K in X. apply N.ltb_lt. exact X.
Qed.
Lemma show_Z_chars z c : In c (show_Z z) -> c = "-"%char \/ In c digit_chars.
Proof.
  assert (H : forall n, In c (show_N n) -> In c digit_chars).
  { intros n Hc. destruct (show_N_ok n) as (_ & H & _). rewrite forallb_forall in H. apply is_digit_iff. auto. }
  destruct z; intros Hc; try (right; eapply H; exact Hc). destruct Hc as [<-|Hc]; [left; reflexivity|right; eapply H; exact Hc].
Qed.

(** ** lines *)
(** a name the server reads back unchanged *)
Definition clean_name (q : str) : Prop :=
  ~ In ":"%char q /\ (forall c q', q = c :: q' -> ~ In c ws_chars) /\ forall c, In c q -> (N_of_ascii c < 128)%N.
Lemma line_made q fields : clean_name q -> (length fields = 2 \/ length fields = 3)%nat ->
  Forall (fun f => ~ In "|"%char f) fields ->
  (forall l c, barred fields = l ++ [c] -> ~ In c ws_chars) ->
  line_of (q ++ B ":" ++ barred fields) q fields.
Proof.
  intros (Hc & Hw & _) Hl Hf Ht. split; [|split; [exact Hc|split; [exact Hl|exact Hf]]].
  exists [], []. rewrite app_nil_r. split; [reflexivity|]. split; [intros ? []|]. split; [intros ? []|]. split.
  - intros c s' H. destruct q as [|a q]; [|injection H as -> _; eapply Hw; reflexivity].
    injection H as <- _. intros K. apply in_bool in K. discriminate.
  - intros c s' H. destruct (barred fields) as [|a b _] eqn:Eb using rev_ind.
    + exfalso. destruct fields as [|f [|f' fs]]; cbn in Hl; try lia.
      cbn [barred] in Eb. apply app_eq_nil in Eb as [_ Eb]. discriminate.
    + rewrite !app_assoc in H. apply app_inj_tail in H as [_ <-]. eapply Ht. reflexivity.
Qed.
Lemma typed_made q t f0 rest : clean_name q -> (length rest = 0 \/ length rest = 1)%nat ->
  Forall (fun f => ~ In "|"%char f) (f0 :: t :: rest) ->
  (forall l c, barred (f0 :: t :: rest) = l ++ [c] -> ~ In c ws_chars) ->
  typed_line (q ++ B ":" ++ barred (f0 :: t :: rest)) t (normalize_key q) (f0 :: t :: rest).
Proof.
  intros Hq Hl Hf Ht. exists q. split; [apply line_made; auto; cbn; lia|]. split; [apply normalize_key_spec; reflexivity|reflexivity].
Qed.

Section agree.
Context `{NN : Num}.

(** a sample rate label as the client prints it *)
Definition label_ok (rt : str) : Prop :=
  ~ In "|"%char rt /\ rt <> [] /\ (forall l c, rt = l ++ [c] -> ~ In c ws_chars).

Lemma not_bar (s : string) : has "|" (B s) = false -> ~ In "|"%char (B s).
Proof. intros H K. apply has_In in K. congruence. Qed.
Lemma tail_ok l k (c : ascii) : k <> [] -> (forall l' c', k = l' ++ [c'] -> ~ In c' ws_chars) ->
  forall m : str, l ++ k = m ++ [c] -> ~ In c ws_chars.
Proof.
  intros Hk Ht m H. destruct k as [|c0 k0 _] using rev_ind; [congruence|].
  rewrite app_assoc in H. apply app_inj_tail in H as [_ <-]. eapply Ht. reflexivity.
Qed.
Lemma type_tail (t : str) : forallb (fun c => negb (is_space c)) t = true ->
  forall l c, t = l ++ [c] -> ~ In c ws_chars.
Proof.
  intros H l c ->. rewrite forallb_app in H. apply andb_prop in H as [_ H]. cbn in H.
  apply is_space_niff. destruct (is_space c); [discriminate|reflexivity].
Qed.

(** the two shapes of line the client writes *)
Lemma plain_typed q f t : clean_name q -> ~ In "|"%char f -> ~ In "|"%char t -> t <> [] ->
  forallb (fun c => negb (is_space c)) t = true ->
  typed_line (q ++ B ":" ++ f ++ B "|" ++ t) t (normalize_key q) [f; t].
Proof.
  intros Hq Hf Ht Hn Hs. apply (typed_made q t f []); [auto|cbn; auto|repeat constructor; auto|].
  intros l c H. cbn [barred] in H. rewrite app_assoc in H. eapply (tail_ok (f ++ B "|") t); eauto.
  apply type_tail. exact Hs.
Qed.
Lemma extra_typed q f t x : clean_name q -> ~ In "|"%char f -> ~ In "|"%char t -> label_ok x ->
  typed_line (q ++ B ":" ++ f ++ B "|" ++ t ++ B "|" ++ x) t (normalize_key q) [f; t; x].
Proof.
  intros Hq Hf Ht (Hx & Hn & Hw). apply (typed_made q t f [x]); [auto|cbn; auto|repeat constructor; auto|].
  intros l c H. cbn [barred] in H. rewrite !app_assoc in H. eapply (tail_ok (((f ++ B "|") ++ t) ++ B "|") x); eauto.
Qed.

Lemma reads_no_bar f v : reads f v -> ~ In "|"%char f.
Proof. intros (l & H & _). eapply float_no_bar; eauto. Qed.

(** counters *)
Lemma counter_line q f v : clean_name q -> reads f v ->
  counter_sample (q ++ B ":" ++ f ++ B "|c") (normalize_key q) v n1.
Proof.
  intros Hq Hv. eapply cs_plain; [|exact Hv].
  apply (plain_typed q f (B "c")); [exact Hq|eapply reads_no_bar; eauto|apply not_bar; reflexivity|discriminate|reflexivity].
Qed.
Lemma at_label rt : label_ok rt -> label_ok (B "@" ++ rt).
Proof.
  intros (H1 & H2 & H3). split; [|split; [discriminate|]].
  - intros [H|H]; [discriminate|auto].
  - intros l c H. eapply (tail_ok (B "@") rt); eauto.
Qed.
Lemma counter_line_rate q f v rt run r : clean_name q -> reads f v -> label_ok rt ->
  rate_text (B "@" ++ rt) run -> reads run r -> neqb r n0 = false ->
  counter_sample (q ++ B ":" ++ (f ++ B "|c") ++ B "|@" ++ rt) (normalize_key q) v r.
Proof.
  intros Hq Hv Hl Hr Hx Hz. eapply cs_rate; [|exact Hv|exact Hr|exact Hx|exact Hz].
  rewrite <- app_assoc. apply (extra_typed q f (B "c") (B "@" ++ rt));
    [exact Hq|eapply reads_no_bar; eauto|apply not_bar; reflexivity|apply at_label; auto].
Qed.
(** gauges, meters, timers: with or without a label *)
Lemma value_line q f t v : clean_name q -> reads f v -> ~ In "|"%char t -> t <> [] ->
  forallb (fun c => negb (is_space c)) t = true ->
  typed_line (q ++ B ":" ++ f ++ B "|" ++ t) t (normalize_key q) [f; t] /\
  forall rt, label_ok rt ->
    typed_line (q ++ B ":" ++ (f ++ B "|" ++ t) ++ B "|@" ++ rt) t (normalize_key q) [f; t; B "@" ++ rt].
Proof.
  intros Hq Hv Ht Hn Hs. pose proof (reads_no_bar _ _ Hv). split; [apply plain_typed; auto|].
  intros rt Hl. rewrite <- !app_assoc. apply (extra_typed q f t (B "@" ++ rt)); auto. apply at_label; auto.
Qed.
Theorem value_samples q f v : clean_name q -> reads f v ->
  gauge_sample (q ++ B ":" ++ f ++ B "|g") (normalize_key q) v /\
  meter_sample (q ++ B ":" ++ f ++ B "|m") (normalize_key q) v /\
  timer_sample (q ++ B ":" ++ f ++ B "|ms") (normalize_key q) v /\
  forall rt, label_ok rt ->
    gauge_sample (q ++ B ":" ++ (f ++ B "|g") ++ B "|@" ++ rt) (normalize_key q) v /\
    meter_sample (q ++ B ":" ++ (f ++ B "|m") ++ B "|@" ++ rt) (normalize_key q) v /\
    timer_sample (q ++ B ":" ++ (f ++ B "|ms") ++ B "|@" ++ rt) (normalize_key q) v.
Proof.
  intros Hq Hv.
  destruct (value_line q f (B "g") v Hq Hv) as [G1 G2]; [apply not_bar; reflexivity|discriminate|reflexivity|].
  destruct (value_line q f (B "m") v Hq Hv) as [M1 M2]; [apply not_bar; reflexivity|discriminate|reflexivity|].
  destruct (value_line q f (B "ms") v Hq Hv) as [T1 T2]; [apply not_bar; reflexivity|discriminate|reflexivity|].
  split; [eexists _, _; split; [exact G1|exact Hv]|].
  split; [eexists _, _; split; [exact M1|exact Hv]|].
  split; [eexists _, _; split; [exact T1|exact Hv]|].
  intros rt Hl. specialize (G2 rt Hl). specialize (M2 rt Hl). specialize (T2 rt Hl).
  split; [eexists _, _; split; [exact G2|exact Hv]|].
  split; [eexists _, _; split; [exact M2|exact Hv]|].
  eexists _, _; split; [exact T2|exact Hv].
Qed.

(** distinct: the type is "d" whatever the name (colons and spaces included) *)
Lemma strip_keep (m : str) : forall c, In c (strip m) -> In c m.
Proof.
  intros c. destruct (strip_spec m) as (l & r & H & _). intros Hc. rewrite H. apply in_or_app. right. apply in_or_app. auto.
Qed.
Lemma strip_tail a (t : str) : t <> [] -> forallb (fun c => negb (is_space c)) t = true ->
  exists a', strip (a ++ t) = a' ++ t /\ (forall c, In c a' -> In c a) /\ (forall c, is_space c = false -> In c a -> In c a').
Proof.
  intros Ht Hs. exists (lstrip a). destruct (lstrip_spec a) as (l & Hl & Hsp & Hh).
  assert (Heq : a ++ t = l ++ (lstrip a ++ t) ++ []) by (rewrite app_nil_r, app_assoc, <- Hl; reflexivity).
  split; [|split].
  - rewrite Heq. apply strip_unique; [exact Hsp|constructor|]. apply trimmed_str_iff. split.
    + intros c s' H. destruct (lstrip a) as [|c0 a'] eqn:Ea.
      * cbn in H. subst t. cbn in Hs. apply andb_prop in Hs as [Hs _]. apply is_space_niff. destruct (is_space c); [discriminate|reflexivity].
      * injection H as -> _. apply is_space_niff. exact Hh.
    + intros c s' H. eapply (tail_ok (lstrip a) t); eauto. apply type_tail. exact Hs.
  - intros c Hc. rewrite Hl. apply in_or_app. auto.
  - intros c Hc Ha. rewrite Hl in Ha. apply in_app_or in Ha as [Ha|Ha]; [|exact Ha].
    unfold all_space in Hsp. rewrite List.Forall_forall in Hsp. specialize (Hsp c Ha). congruence.
Qed.
Theorem distinct_line_type q item : ~ In "|"%char q -> ~ In "|"%char item ->
  exists raw f, typed_line (q ++ B ":" ++ item ++ B "|d") (B "d") (normalize_key raw) [f; B "d"].
Proof.
  intros Hq Hi.
  set (a := q ++ B ":" ++ item).
  destruct (strip_tail a (B "|d") ltac:(discriminate) ltac:(reflexivity)) as (a' & Hs & Hin & Hkeep).
  assert (Hc : In ":"%char a'). { apply Hkeep; [reflexivity|]. unfold a. apply in_or_app. right. left. reflexivity. }
  destruct (split1 ":" a') as [[raw f]|] eqn:E1; [|apply split1_None in E1; contradiction].
  apply split1_Some in E1 as [Ha' Hraw]. exists raw, f. exists raw. split; [|split; [apply normalize_key_spec; reflexivity|reflexivity]].
  split; [|split; [exact Hraw|split; [left; reflexivity|]]].
  - apply stripped_strip. cbn [barred].
    replace (q ++ B ":" ++ item ++ B "|d") with (a ++ B "|d") by (unfold a; rewrite <- !app_assoc; reflexivity).
    rewrite Hs, Ha'. rewrite <- app_assoc. reflexivity.
  - repeat constructor; [|apply not_bar; reflexivity]. intros Hb.
    assert (K : In "|"%char a). { apply Hin. rewrite Ha'. apply in_or_app. right. right. exact Hb. }
    unfold a in K. apply in_app_or in K as [K|[K|K]]; [auto|discriminate|auto].
Qed.
Theorem distinct_rejected plugs q item : ~ In "|"%char q -> ~ In "|"%char item -> plugs !! B "d" = None ->
  malformed plugs (q ++ B ":" ++ item ++ B "|d").
Proof.
  intros Hq Hi Hp. destruct (distinct_line_type q item Hq Hi) as (raw & f & H). eapply mf_type; [exact H| |exact Hp].
  intros [K|[K|[K|K]]]; discriminate.
Qed.
End agree.
