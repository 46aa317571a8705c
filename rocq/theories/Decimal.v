(** What "%d" and "%03d" print, independently of how the model prints it. *)
From Verif Require Import Base StrFacts LineSpec LineFacts FloatFacts ClientServer Process CounterFacts Plain.
Open Scope Z_scope.

(** decimal digits without superfluous zeros *)
Definition natural (t : str) (n : Z) : Prop :=
  t <> [] /\ digits_of t n /\ forall s, t = "0"%char :: s -> s = [].
(** "%d" % z *)
Definition decimal (t : str) (z : Z) : Prop :=
  natural t z \/ z < 0 /\ exists s, t = "-"%char :: s /\ natural s (- z).
(** "%03d" % n, n not negative: at least three digits, zeros in front only to make three *)
Definition three_digits (t : str) (n : Z) : Prop :=
  digits_of t n /\ (length t = 3%nat \/ (3 < length t)%nat /\ forall s, t <> "0"%char :: s).

Lemma digit_of_range c d : digit_of c d -> 0 <= d < 10.
Proof.
  intros H. destruct H as [i c H]. assert (Hl : (i < length digit_chars)%nat) by (apply nth_error_Some; congruence).
  change (length digit_chars) with 10%nat in Hl. lia.
Qed.
Lemma digit_of_inj c c' d : digit_of c d -> digit_of c' d -> c = c'.
Proof.
  intros [i x Hi] H'. remember (Z.of_nat i) as z eqn:E. destruct H' as [j y Hj]. apply Nat2Z.inj in E. subst. congruence.
Qed.
Lemma digits_of_range s v : digits_of s v -> 0 <= v < 10 ^ Z.of_nat (length s).
Proof.
  induction 1 as [|c d s v Hd _ IH]; [cbn; lia|]. apply digit_of_range in Hd. cbn [length]. rewrite Nat2Z.inj_succ, Z.pow_succ_r by lia. nia.
Qed.
Lemma digits_of_inj s : forall s' v, length s = length s' -> digits_of s v -> digits_of s' v -> s = s'.
Proof.
  induction s as [|c s IH]; intros [|c' s'] v Hl H H'; try discriminate; [reflexivity|].
  injection Hl as Hl. inversion H as [|? d ? w Hd Hs Hc Hv]. remember (c' :: s') as t' eqn:Et. destruct H' as [|c1 d' s1 w' Hd' Hs']; [discriminate|].
  injection Et as -> ->. subst.
  pose proof (digits_of_range _ _ Hs) as B1. pose proof (digits_of_range _ _ Hs') as B2. rewrite <- Hl in *.
  assert (Hdd : d = d') by nia. subst d'. assert (w = w') by lia. subst w'.
  rewrite (digit_of_inj _ _ _ Hd Hd'). f_equal. eapply IH; eassumption.
Qed.
Lemma zero_digit d : digit_of "0"%char d -> d = 0.
Proof.
  intros H. inversion H as [i ? Hi]; subst. do 10 (destruct i as [|i]; [try reflexivity; discriminate|]). destruct i; discriminate.
Qed.
Lemma lead s v c : digits_of (c :: s) v -> c <> "0"%char -> 10 ^ Z.of_nat (length s) <= v.
Proof.
  intros H Hc. inversion H as [|? d ? w Hd Hs]; subst. pose proof (digits_of_range _ _ Hs). pose proof (digit_of_range _ _ Hd).
  assert (d <> 0); [|nia]. intros ->. apply Hc. apply (digit_of_inj _ _ 0 Hd). exact (digit_at 0 "0"%char eq_refl).
Qed.
Lemma same_length c s c' s' v : c <> "0"%char -> digits_of (c :: s) v -> digits_of (c' :: s') v -> (length s <= length s')%nat.
Proof.
  intros Hc H H'. pose proof (lead _ _ _ H Hc) as B1. pose proof (digits_of_range _ _ H') as B2. cbn [length] in B2.
  destruct (Nat.le_gt_cases (length s) (length s')) as [|Hlt]; [assumption|]. exfalso.
  assert (10 ^ Z.of_nat (S (length s')) <= 10 ^ Z.of_nat (length s)) by (apply Z.pow_le_mono_r; lia). lia.
Qed.
Lemma natural_fun t t' n : natural t n -> natural t' n -> t = t'.
Proof.
  intros (H1 & H2 & H3) (K1 & K2 & K3). destruct t as [|c s]; [contradiction|]. destruct t' as [|c' s']; [contradiction|].
  assert (Hz : forall c s, (forall s0, c :: s = "0"%char :: s0 -> s0 = []) -> c <> "0"%char \/ s = []).
  { intros x y Hx. destruct (Ascii.ascii_dec x "0") as [->|]; [right; apply Hx; reflexivity|left; assumption]. }
  assert (length s = length s').
  { destruct (Hz _ _ H3) as [A|A], (Hz _ _ K3) as [A'|A']; subst.
    - pose proof (same_length _ _ _ _ _ A H2 K2). pose proof (same_length _ _ _ _ _ A' K2 H2). lia.
    - pose proof (same_length _ _ _ _ _ A H2 K2). cbn in *. lia.
    - pose proof (same_length _ _ _ _ _ A' K2 H2). cbn in *. lia.
    - reflexivity. }
  eapply digits_of_inj; [cbn; lia|eassumption..].
Qed.
Lemma no_lead_zero f : forall n, (0 < n)%N -> (n < 2 ^ N.of_nat f)%N -> forall s, digits_fuel (S f) n <> "0"%char :: s.
Proof.
  induction f as [|f IH]; intros n Hn Hf s.
  - change (2 ^ N.of_nat 0)%N with 1%N in Hf. lia.
  - change (digits_fuel (S (S f)) n) with (if (n <? 10)%N then [digit_char n] else digits_fuel (S f) (n / 10) ++ [digit_char (n mod 10)]).
    destruct (n <? 10)%N eqn:En.
    + apply N.ltb_lt in En. intros H. injection H as H _. destruct (digit_char_ok n En) as [_ Hv]. rewrite H in Hv. change (digit_val "0") with 0 in Hv. lia.
    + apply N.ltb_ge in En.
      assert (Hd : (n / 10 < 2 ^ N.of_nat f)%N) by (apply N.div_lt_upper_bound; [lia|]; rewrite Nat2N.inj_succ, N.pow_succ_r' in Hf; lia).
      assert (H0 : (0 < n / 10)%N) by (apply N.div_str_pos; lia). specialize (IH _ H0 Hd).
      destruct (digits_fuel (S f) (n / 10)) as [|c t] eqn:Ed; [|cbn [app]; intros H; injection H as -> _; eapply IH; reflexivity].
      exfalso. cbn [digits_fuel] in Ed. destruct (n / 10 <? 10)%N; [discriminate|]. apply app_eq_nil in Ed as [_ Ed]. discriminate.
Qed.
Lemma size_bound n : (n < 2 ^ N.of_nat (N.size_nat n))%N.
Proof.
  pose proof (N.size_gt n) as H. destruct n as [|p]; [reflexivity|]. eapply N.lt_le_trans; [exact H|]. apply N.pow_le_mono_r; [lia|].
  assert (Hs : forall p, N.size (Npos p) = N.of_nat (Pos.size_nat p)).
  { clear. induction p; cbn [N.size Pos.size Pos.size_nat] in *; try injection IHp; intros; lia. }
  rewrite Hs. reflexivity.
Qed.
Lemma show_N_natural n : natural (show_N n) (Z.of_N n).
Proof.
  destruct (show_N_ok n) as (H1 & H2 & H3). split; [exact H1|]. split; [apply digits_of_iff; auto|].
  intros s Hs. destruct (N.eq_dec n 0) as [->|Hn]; [vm_compute in Hs; congruence|]. exfalso.
  eapply (no_lead_zero (N.size_nat n) n); [lia|apply size_bound|exact Hs].
Qed.
Theorem show_Z_decimal t z : decimal t z <-> t = show_Z z.
Proof.
  assert (Hok : decimal (show_Z z) z).
  { destruct z as [|p|p]; [left; exact (show_N_natural 0)|left; exact (show_N_natural (Npos p))|].
    right. split; [lia|]. exists (show_N (Npos p)). split; [reflexivity|exact (show_N_natural (Npos p))]. }
  split; [|intros ->; exact Hok]. intros H.
  assert (Hpos : forall t n, natural t n -> 0 <= n) by (intros ? ? (_ & Hd & _); apply digits_of_range in Hd; lia).
  destruct H as [H|(Hz & s & -> & H)], Hok as [K|(Kz & s' & Es & K)].
  - eapply natural_fun; eassumption.
  - apply Hpos in H. lia.
  - apply Hpos in K. lia.
  - rewrite Es. f_equal. eapply natural_fun; eassumption.
Qed.
Theorem pad3_digits t i : three_digits t (Z.of_nat i) <-> t = pad3 i.
Proof.
  assert (Hz : forall k s v, digits_of s v -> digits_of (repeat "0"%char k ++ s) v).
  { clear. induction k as [|k IH]; intros s v H; [exact H|]. cbn [repeat app].
    replace v with (0 * 10 ^ Z.of_nat (length (repeat "0"%char k ++ s)) + v) by lia. constructor; [exact (digit_at 0 "0"%char eq_refl)|apply IH, H]. }
  assert (Hok : three_digits (pad3 i) (Z.of_nat i)).
  { destruct (show_N_natural (N.of_nat i)) as (H1 & H2 & H3). rewrite nat_N_Z in H2. unfold pad3. cbv zeta. set (d := show_N (N.of_nat i)) in *.
    split; [apply Hz, H2|]. rewrite app_length, repeat_length. destruct (Nat.le_gt_cases (length d) 3) as [Hl|Hl]; [left; lia|].
    right. split; [lia|]. intros s Hs. replace (3 - length d)%nat with 0%nat in Hs by lia. cbn [repeat app] in Hs.
    rewrite (H3 s Hs) in Hs. rewrite Hs in Hl. cbn in Hl. lia. }
  split; [|intros ->; exact Hok]. intros [H Hl]. destruct Hok as [K Kl].
  eapply digits_of_inj; [|eassumption..].
  assert (Hlen : forall t t' n, digits_of t n -> digits_of t' n -> (3 < length t)%nat -> (forall s, t <> "0"%char :: s) -> (length t <= length t')%nat \/ t' = []).
  { intros [|c s] [|c' s'] n Ht Ht' Hlt Hns; [auto|cbn in Hlt; lia|auto|]. left.
    assert (Hc : c <> "0"%char) by (intros ->; eapply Hns; reflexivity). pose proof (same_length _ _ _ _ _ Hc Ht Ht'). cbn. lia. }
  destruct Hl as [Hl|[Hl Hn]], Kl as [Kl|[Kl Kn]].
  - lia.
  - destruct (Hlen _ _ _ K H Kl Kn) as [?|E]; [lia|rewrite E in Hl; discriminate].
  - destruct (Hlen _ _ _ H K Hl Hn) as [?|E]; [lia|rewrite E in Kl; discriminate].
  - destruct (Hlen _ _ _ H K Hl Hn) as [?|E]; [|rewrite E in Kl; cbn in Kl; lia].
    destruct (Hlen _ _ _ K H Kl Kn) as [?|E]; [|rewrite E in Hl; cbn in Hl; lia]. lia.
Qed.

(** ** The statements that print numbers *)
Lemma percpu_digits {V} prefix (cpus : list (list (str * V))) :
  (forall times, In times cpus -> NoDup (map fst times)) ->
  forall k v, system_stats_percpu prefix cpus !! k = Some v <->
    exists i times mode num, nth_error cpus i = Some times /\ three_digits num (Z.of_nat i) /\ In (mode, v) times /\
      k = prefix ++ B ".cpu." ++ num ++ B "." ++ mode.
Proof.
  intros H k v. rewrite (percpu prefix cpus H). split.
  - intros (i & times & mode & H1 & H2 & ->). exists i, times, mode, (pad3 i). split; [exact H1|]. split; [apply pad3_digits; reflexivity|]. split; [exact H2|reflexivity].
  - intros (i & times & mode & num & H1 & H2 & H3 & ->). exists i, times, mode. apply pad3_digits in H2. subst. auto.
Qed.
Lemma cpu_names_apart prefix i j num num' a b : three_digits num (Z.of_nat i) -> three_digits num' (Z.of_nat j) ->
  prefix ++ B ".cpu." ++ num ++ B "." ++ a = prefix ++ B ".cpu." ++ num' ++ B "." ++ b -> i = j /\ a = b.
Proof. intros H H'. apply pad3_digits in H. apply pad3_digits in H'. subst. apply cpu_key_inj. Qed.

(** the name of a blocking client: its host as given, its port as resolved *)
Lemma prun_same cs : forall p, pl_original (fst (prun p cs)) = pl_original p /\ pl_port (fst (prun p cs)) = pl_port p.
Proof.
  induction cs as [|c cs IH]; intros p; [auto|]. cbn [prun]. destruct (pstep p c) as [p1 o] eqn:Es.
  assert (H1 : pl_original p1 = pl_original p /\ pl_port p1 = pl_port p).
  { destruct c as [k| |d o']; cbn [pstep] in Es; [destruct k; cbn [plain_connect] in Es|..]; injection Es as <- _; auto. }
  specialize (IH p1). destruct (prun p1 cs) as [p2 os]. cbn [fst] in *. destruct IH as [I1 I2], H1 as [J1 J2]. split; congruence.
Qed.
Lemma plain_label getaddrinfo host port host' port' more p cs t :
  getaddrinfo host port = Ok ((host', port') :: more) -> plain_new getaddrinfo (Some host) (Some port) = Ok p ->
  decimal t port' -> plain_str (fst (prun p cs)) = Ok (host ++ B ":" ++ t).
Proof.
  intros Hg Hp Ht. cbn [plain_new] in Hp. rewrite Hg in Hp. injection Hp as <-.
  destruct (prun_same cs (Plain (Some host) (Some host') (Some port') None)) as [H1 H2]. unfold plain_str. rewrite H1, H2.
  cbn [pl_port pl_original]. apply show_Z_decimal in Ht. subst t. reflexivity.
Qed.
Lemma plain_unnamed getaddrinfo host port p cs : host = None \/ port = None -> plain_new getaddrinfo host port = Ok p ->
  match port with
  | None => plain_str (fst (prun p cs)) = Exn TypeError
  | Some n => forall t, decimal t n -> plain_str (fst (prun p cs)) = Ok (B "None:" ++ t)
  end.
Proof.
  intros Hn Hp. assert (Hpl : p = Plain host host port None).
  { destruct Hn as [->| ->]; cbn in Hp; [|destruct host; cbn in Hp]; congruence. }
  subst p. destruct (prun_same cs (Plain host host port None)) as [H1 H2]. unfold plain_str. rewrite H1, H2. cbn [pl_port pl_original].
  destruct port as [n|]; [|reflexivity]. intros t Ht. apply show_Z_decimal in Ht. subst t. destruct Hn as [->|]; [reflexivity|discriminate].
Qed.
