(** The router builds what its configuration says and routes as it says. *)
From Verif Require Import Base StrFacts LineSpec LineFacts FloatFacts Glob GlobFacts Processor ProcFacts Client Router RouterSpec.

(** ** Text *)
Lemma spaced_join sep ps : spaced sep ps = join sep ps.
Proof.
  induction ps as [|p ps IH]; [reflexivity|]. destruct ps as [|q ps]; [reflexivity|].
  change (p ++ sep ++ spaced sep (q :: ps) = p ++ sep ++ join sep (q :: ps)). rewrite IH. reflexivity.
Qed.
Lemma filter_nonempty (ps : list str) : filter (fun p => p <> []) ps = filter nonempty ps.
Proof.
  apply list_filter_iff. intros p. destruct p; cbn; split; intros H; try discriminate; try contradiction; auto.
Qed.
Lemma split_on_iff c s ps : (ps <> [] /\ s = spaced [c] ps /\ Forall (fun p => ~ In c p) ps) <-> split_on c s = ps.
Proof.
  split.
  - intros (H1 & -> & H2). rewrite spaced_join. apply split_on_join; assumption.
  - intros <-. split; [apply split_on_nonempty|]. split; [|apply split_on_no_sep].
    rewrite spaced_join. symmetry. apply join_split_on.
Qed.
Lemma Forall2_strip ps ws : Forall2 stripped ps ws <-> map strip ps = ws.
Proof.
  split.
  - intros H. induction H as [|p w ps ws Hp H IH]; [reflexivity|]. cbn. f_equal; [apply stripped_strip, Hp|exact IH].
  - intros <-. induction ps as [|p ps IH]; constructor; [apply stripped_strip; reflexivity|exact IH].
Qed.
Lemma words_of_iff text ws : words_of text ws <-> parts_of text = ws.
Proof.
  unfold words_of, parts_of. split.
  - intros (ps & H1 & H2 & H3 & H4). rewrite filter_nonempty in H4. apply Forall2_strip in H4.
    assert (split_on " " text = ps) as -> by (apply split_on_iff; auto). exact H4.
  - intros H. exists (split_on " " text). destruct (proj2 (split_on_iff " " text _) eq_refl) as (A1 & A2 & A3).
    split; [exact A1|]. split; [exact A2|]. split; [exact A3|]. rewrite filter_nonempty. apply Forall2_strip, H.
Qed.

Lemma lstrip_in c s : In c (lstrip s) -> In c s.
Proof. induction s as [|x s IH]; cbn; [auto|]. destruct (is_space x); cbn; auto. Qed.
Lemma strip_in c s : In c (strip s) -> In c s.
Proof.
  unfold strip, rstrip. intros H. apply in_rev, lstrip_in, in_rev, lstrip_in in H. exact H.
Qed.
Definition wordy (w : str) : Prop := ~ In " "%char w /\ strip w = w.
Lemma parts_wordy text : Forall wordy (parts_of text).
Proof.
  unfold parts_of. apply Forall_map. apply Forall_forall. intros p Hp. apply elem_of_list_filter in Hp as [_ Hp].
  split; [|apply strip_idemp]. intros H. apply strip_in in H.
  pose proof (split_on_no_sep " " text) as Hs. rewrite Forall_forall in Hs. exact (Hs p Hp H).
Qed.
Lemma parts_join args : Forall wordy args -> parts_of (join (B " ") args) = squeeze args.
Proof.
  intros H. unfold parts_of, squeeze. rewrite filter_nonempty. destruct args as [|a args]; [reflexivity|].
  change (B " ") with [" "%char]. rewrite split_on_join; [|discriminate|].
  - assert (Hf : Forall wordy (filter nonempty (a :: args))).
    { apply Forall_forall. intros x Hx. apply elem_of_list_filter in Hx as [_ Hx]. rewrite Forall_forall in H. auto. }
    induction Hf as [|x l [_ Hx] Hf IH]; [reflexivity|]. cbn. rewrite Hx, IH. reflexivity.
  - eapply Forall_impl; [exact H|]. intros x [Hx _]. exact Hx.
Qed.
Lemma squeeze_wordy ws : Forall wordy ws -> Forall wordy (squeeze ws).
Proof. intros H. apply Forall_forall. intros x Hx. apply elem_of_list_filter in Hx as [_ Hx]. rewrite Forall_forall in H. auto. Qed.
Lemma squeeze_length ws : (length (squeeze ws) <= length ws)%nat.
Proof. unfold squeeze. induction ws as [|w ws IH]; [cbn; lia|]. rewrite filter_cons. destruct (decide _); cbn; lia. Qed.

(** ** Conditions *)
Inductive cond_of : list str -> cond -> Prop :=
| co_any : cond_of [B "any"] CAny
| co_not ws c : cond_of (squeeze ws) c -> cond_of (B "not" :: ws) (CNot c)
| co_type ts : cond_of (B "metric_type" :: ts) (CType ts)
| co_like p : cond_of [B "path_like"; p] (CLike p).

Lemma build_cond_fuel_iff n : forall text c, (length (parts_of text) <= n)%nat ->
  (build_cond_fuel n text = Ok c <-> cond_of (parts_of text) c).
Proof.
  induction n as [|n IH]; intros text c Hn.
  - destruct (parts_of text) as [|x l] eqn:E; [|cbn in Hn; lia]. cbn. rewrite E. split; [discriminate|intros H; inversion H].
  - cbn [build_cond_fuel]. pose proof (parts_wordy text) as Hw. destruct (parts_of text) as [|name args]; [split; [discriminate|intros H; inversion H]|].
    destruct (str_eqb name (B "any")) eqn:E1; [apply str_eqb_eq in E1; subst|apply str_eqb_neq in E1].
    { destruct args; split; intros H; try discriminate; try (inversion H; fail); try (injection H as <-; constructor).
      inversion H. reflexivity. }
    destruct (str_eqb name (B "not")) eqn:E2; [apply str_eqb_eq in E2; subst|apply str_eqb_neq in E2].
    { inversion_clear Hw as [|? ? _ Ha]. cbn in Hn. pose proof (squeeze_length args) as Hq.
      pose proof (IH (join (B " ") args)) as IH'. rewrite (parts_join args Ha) in IH'.
      split.
      - destruct (build_cond_fuel n (join (B " ") args)) as [c'|e]; [|discriminate]. intros [= <-].
        constructor. apply IH'; [lia|reflexivity].
      - intros H. inversion H as [| ? c' Hc | |]; subst; try congruence.
        assert (build_cond_fuel n (join (B " ") args) = Ok c') as -> by (apply IH'; [lia|exact Hc]). reflexivity. }
    destruct (str_eqb name (B "metric_type")) eqn:E3; [apply str_eqb_eq in E3; subst|apply str_eqb_neq in E3].
    { split; intros H; [injection H as <-; constructor|]. inversion H; subst; try congruence. }
    destruct (str_eqb name (B "path_like")) eqn:E4; [apply str_eqb_eq in E4; subst|apply str_eqb_neq in E4].
    { destruct args as [|p [|]]; split; intros H; try discriminate; try (inversion H; fail).
      - injection H as <-. constructor.
      - inversion H; subst; reflexivity. }
    split; intros H; [discriminate|]. inversion H; congruence.
Qed.
Lemma build_cond_iff text c : build_cond text = Ok c <-> cond_of (parts_of text) c.
Proof. apply build_cond_fuel_iff. lia. Qed.
Lemma good_cond_iff ws : good_cond ws <-> exists c, cond_of ws c.
Proof.
  split.
  - intros H. induction H as [|ws H [c IH]| |]; eexists; constructor. exact IH.
  - intros [c H]. induction H; constructor. exact IHcond_of.
Qed.
Lemma cond_of_fun ws c c' : cond_of ws c -> cond_of ws c' -> c = c'.
Proof.
  intros H. revert c'. induction H as [|ws c H IH| |]; intros c' H'; inversion H'; subst; try reflexivity.
  f_equal. apply IH. assumption.
Qed.

Lemma existsb_str t ts : existsb (str_eqb t) ts = true <-> In t ts.
Proof.
  rewrite existsb_exists. split.
  - intros (x & Hx & He). apply str_eqb_eq in He. subst. exact Hx.
  - intros H. exists t. split; [exact H|apply str_eqb_refl].
Qed.
Lemma matches_iff ws c m b : cond_of ws c -> (matches ws m b <-> cond_run c m = Ok b).
Proof.
  intros H. revert b. induction H as [|ws c H IH|ts|p]; intros b; destruct m as [[t k] fs]; cbn.
  - split; intros Hm; [inversion Hm; reflexivity|injection Hm as <-; constructor].
  - cbn in IH. split; intros Hm.
    + inversion Hm as [|? ? b' Hm'| | | |]; subst. apply IH in Hm'. rewrite Hm'. reflexivity.
    + destruct (cond_run c (t, k, fs)) as [b'|e]; [|discriminate]. injection Hm as <-. constructor. apply IH. reflexivity.
  - destruct (existsb (str_eqb t) ts) eqn:Ex.
    + apply existsb_str in Ex. split; intros Hm; [inversion Hm; subst; [reflexivity|contradiction]|]. injection Hm as <-. constructor. exact Ex.
    + assert (~ In t ts) by (rewrite <- existsb_str, Ex; discriminate).
      split; intros Hm; [inversion Hm; subst; [contradiction|reflexivity]|]. injection Hm as <-. constructor. assumption.
  - destruct (fnmatch_spec k p) as [F1 F2]. split; intros Hm.
    + inversion Hm; subst; destruct F1 as (b' & -> & Hb); try assumption.
      * f_equal. apply Hb. assumption.
      * f_equal. destruct b'; [|reflexivity]. exfalso. tauto.
    + assert (Hd : proper p).
      { revert Hm. unfold fnmatch, parse_glob. pose proof (parse_spec (length p) p ltac:(lia)) as H.
        destruct (parse_glob_fuel (length p) p); [intros _; apply H|discriminate]. }
      destruct (F1 Hd) as (b' & Hb & Hi). rewrite Hb in Hm. injection Hm as ->.
      destruct b; constructor; try assumption; [apply Hi; reflexivity|]. intros Hx. apply Hi in Hx. discriminate.
Qed.

(** ** Arrows *)
Lemma split2_cons a b x s : split_on2 a b s <> [] ->
  (match s with y :: _ => eqc a x && eqc b y = false | [] => True end) ->
  split_on2 a b (x :: s) = match split_on2 a b s with [] => [[x]] | w :: ws => (x :: w) :: ws end.
Proof.
  intros Hne H. destruct s as [|y s]; [reflexivity|]. cbn [split_on2] in *.
  change (split_on2 a b (x :: y :: s)) with
    (if eqc a x && eqc b y then [] :: split_on2 a b s
     else match split_on2 a b (y :: s) with [] => [[x]] | w :: ws => (x :: w) :: ws end).
  rewrite H. reflexivity.
Qed.
Lemma split2_hit a b s : split_on2 a b (a :: b :: s) = [] :: split_on2 a b s.
Proof.
  change (split_on2 a b (a :: b :: s)) with
    (if eqc a a && eqc b b then [] :: split_on2 a b s
     else match split_on2 a b (b :: s) with [] => [[a]] | w :: ws => (a :: w) :: ws end).
  rewrite !eqc_refl. reflexivity.
Qed.
Lemma split2_nonempty a b : forall n s, (length s <= n)%nat -> split_on2 a b s <> [].
Proof.
  induction n as [|n IH]; intros s Hs; [destruct s; [discriminate|cbn in Hs; lia]|].
  destruct s as [|x [|y s]]; [discriminate|discriminate|].
  change (split_on2 a b (x :: y :: s)) with
    (if eqc a x && eqc b y then [] :: split_on2 a b s
     else match split_on2 a b (y :: s) with [] => [[x]] | w :: ws => (x :: w) :: ws end).
  destruct (_ && _); [discriminate|]. destruct (split_on2 a b (y :: s)); discriminate.
Qed.
Definition occurs2 (a b : ascii) (s : str) : Prop := exists u v, s = u ++ [a; b] ++ v.
(** [s] up to the first [ab], or all of it *)
Lemma split2_spec a b (Hab : a <> b) : forall n s, (length s <= n)%nat ->
  (~ occurs2 a b s /\ split_on2 a b s = [s]) \/
  (exists u v, s = u ++ [a; b] ++ v /\ ~ occurs2 a b u /\ split_on2 a b s = u :: split_on2 a b v).
Proof.
  induction n as [|n IH]; intros s Hs.
  { destruct s; [|cbn in Hs; lia]. left. split; [|reflexivity]. intros (u & v & H). destruct u; discriminate. }
  destruct s as [|x s].
  { left. split; [|reflexivity]. intros (u & v & H). destruct u; discriminate. }
  destruct (match s with y :: _ => eqc a x && eqc b y | [] => false end) eqn:Eh.
  - destruct s as [|y s]; [discriminate|]. apply andb_true_iff in Eh as [E1 E2]. apply eqc_eq in E1, E2. subst.
    right. exists [], s. split; [reflexivity|]. split; [|apply split2_hit]. intros (u & v & H). destruct u; discriminate.
  - rewrite split2_cons; [|eapply split2_nonempty; reflexivity|destruct s; auto].
    assert (Hocc : forall t, (exists t', s = t ++ t') -> occurs2 a b (x :: t) -> occurs2 a b t).
    { intros t (t' & Ht) (u & v & H). destruct u as [|z u].
      - exfalso. cbn in H. injection H as -> ->. cbn in Ht. subst s. cbn in Eh. rewrite !eqc_refl in Eh. discriminate.
      - injection H as _ H. exists u, v. exact H. }
    destruct (IH s ltac:(cbn in Hs; lia)) as [[H1 H2]|(u & v & H1 & H2 & H3)].
    + left. rewrite H2. split; [|reflexivity]. intros H. apply H1, Hocc; [exists []; symmetry; apply app_nil_r|exact H].
    + right. exists (x :: u), v. rewrite H3. split; [rewrite H1; reflexivity|]. split; [|reflexivity].
      intros H. apply H2, Hocc; [exists ([a; b] ++ v); exact H1|exact H].
Qed.
Lemma split2_unique a b (Hab : a <> b) u v u' v' :
  u ++ [a; b] ++ v = u' ++ [a; b] ++ v' -> ~ occurs2 a b u -> ~ occurs2 a b u' -> u = u' /\ v = v'.
Proof.
  revert u'. induction u as [|x u IH]; intros u' H H1 H2.
  - destruct u' as [|y [|z u']]; cbn in H.
    + injection H as ->. auto.
    + injection H as <- E _. congruence.
    + injection H as <- <- _. exfalso. apply H2. exists [], u'. reflexivity.
  - destruct u' as [|y u'].
    + destruct u as [|z u]; cbn in H.
      * injection H as -> E _. congruence.
      * injection H as -> -> _. exfalso. apply H1. exists [], u. reflexivity.
    + injection H as -> H. destruct (IH u' H) as [-> ->]; auto.
      * intros (p & q & ->). apply H1. exists (y :: p), q. reflexivity.
      * intros (p & q & ->). apply H2. exists (y :: p), q. reflexivity.
Qed.
Lemma split2_two a b (Hab : a <> b) s p q :
  split_on2 a b s = [p; q] <-> s = p ++ [a; b] ++ q /\ ~ occurs2 a b p /\ ~ occurs2 a b q.
Proof.
  destruct (split2_spec a b Hab (length s) s ltac:(lia)) as [[H1 H2]|(u & v & H1 & H2 & H3)].
  - rewrite H2. split; [discriminate|]. intros (-> & _). exfalso. apply H1. exists p, q. reflexivity.
  - rewrite H3. destruct (split2_spec a b Hab (length v) v ltac:(lia)) as [[K1 K2]|(u' & v' & K1 & K2 & K3)].
    + rewrite K2. split.
      * intros [= <- <-]. auto.
      * intros (E & E1 & E2). rewrite H1 in E. destruct (split2_unique a b Hab u v p q E H2 E1) as [-> ->]. reflexivity.
    + rewrite K3. split.
      * intros H. exfalso. injection H as _ _ H. revert H. eapply split2_nonempty. reflexivity.
      * intros (E & E1 & E2). rewrite H1 in E. destruct (split2_unique a b Hab u v p q E H2 E1) as [-> ->].
        exfalso. apply E2. exists u', v'. exact K1.
Qed.
Lemma arrow_iff line a b : split_on2 "=" ">" line = [a; b] <->
  line = a ++ B "=>" ++ b /\ ~ has_arrow a /\ ~ has_arrow b.
Proof. apply (split2_two "=" ">"). discriminate. Qed.

(** ** Integers *)
Lemma parse_int_iff s n : parse_int s = Some n <-> int_text s n.
Proof.
  unfold parse_int, int_text. split.
  - destruct (parse_sign_spec (strip s)) as (sg & H1 & H2). destruct (parse_sign (strip s)) as [neg d]. cbn [fst snd] in *.
    destruct (nonempty d && forallb is_digit d) eqn:E; [|discriminate]. apply andb_true_iff in E as [E1 E2].
    intros [= <-]. exists sg, neg, d, (digits_val d). split; [apply stripped_strip; exact H1|]. split; [exact H2|].
    split; [destruct d; discriminate|]. split; [apply digits_of_iff; auto|]. destruct neg; reflexivity.
  - intros (sg & neg & ds & v & H1 & H2 & H3 & H4 & ->). apply stripped_strip in H1. rewrite H1.
    apply digits_of_iff in H4 as [H4 ->].
    rewrite (parse_sign_app sg neg ds H2).
    + destruct ds as [|d ds]; [congruence|]. cbn [nonempty]. rewrite H4. destruct neg; reflexivity.
    + destruct ds as [|d ds]; [congruence|]. cbn in H4. apply andb_true_iff in H4 as [H4 _]. apply digit_plain in H4. apply H4.
Qed.

(** ** Targets and rules *)
Section build.
Context (G : engine) (service : bool).

Inductive target_of : nat -> list str -> target G -> list lspec -> Prop :=
| to_drop j : target_of j [B "drop"] TDrop []
| to_rewrite j p repl r : rx_compile G p = Ok r -> target_of j [B "rewrite"; p; repl] (TRewrite r repl (B "no-dup")) []
| to_rewrite_dup j p repl d r : rx_compile G p = Ok r -> target_of j [B "rewrite"; p; repl; d] (TRewrite r repl d) []
| to_type j t : target_of j [B "set_metric_type"; t] (TSetType t (B "no-dup")) []
| to_type_dup j t d : target_of j [B "set_metric_type"; t; d] (TSetType t d) []
| to_udp j host port n : service = true -> int_text port n ->
    target_of j [B "redirect_udp"; host; port] (TSend j) [(false, host, n)]
| to_tcp j host port n : service = true -> int_text port n ->
    target_of j [B "redirect_tcp"; host; port] (TSend j) [(true, host, n)]
| to_udp_none j host port : service = false -> target_of j [B "redirect_udp"; host; port] TTrue []
| to_tcp_none j host port : service = false -> target_of j [B "redirect_tcp"; host; port] TTrue [].

Lemma build_redirect_iff tcp args ls ls' t :
  build_redirect G service tcp args ls = (ls', Ok t) <->
  exists host port, args = [host; port] /\
    ((service = true /\ exists n, int_text port n /\ t = TSend (length ls) /\ ls' = ls ++ [(tcp, host, n)]) \/
     (service = false /\ t = TTrue /\ ls' = ls)).
Proof.
  unfold build_redirect. destruct args as [|host [|port [|]]];
    try (split; [discriminate|intros (?&?&?&_); discriminate]).
  split.
  - intros H. exists host, port. split; [reflexivity|]. destruct service.
    + left. split; [reflexivity|]. destruct (parse_int port) as [n|] eqn:E; [|discriminate].
      injection H as <- <-. exists n. apply parse_int_iff in E. auto.
    + right. injection H as <- <-. auto.
  - intros (h & p & [= <- <-] & [(-> & n & Hn & -> & ->)|(-> & -> & ->)]).
    + apply parse_int_iff in Hn. rewrite Hn. reflexivity.
    + reflexivity.
Qed.
Lemma build_target_iff ws ls ls' t :
  build_target G service ws ls = (ls', Ok t) <->
  exists add, ls' = ls ++ add /\ target_of (length ls) ws t add.
Proof.
  split.
  - unfold build_target. destruct ws as [|name args]; [discriminate|].
    destruct (str_eqb name (B "drop")) eqn:E1.
    { apply str_eqb_eq in E1. subst. destruct args; [|discriminate]. intros [= <- <-]. exists [].
      rewrite app_nil_r. split; [reflexivity|constructor]. }
    destruct (str_eqb name (B "rewrite")) eqn:E2.
    { apply str_eqb_eq in E2. subst. destruct args as [|p [|repl [|d [|]]]]; try discriminate;
      unfold lift_, bnd, ret, raise; destruct (rx_compile G p) eqn:E; try discriminate; intros [= <- <-]; exists [];
      rewrite app_nil_r; (split; [reflexivity|constructor; assumption]). }
    destruct (str_eqb name (B "set_metric_type")) eqn:E3.
    { apply str_eqb_eq in E3. subst. destruct args as [|p [|d [|]]]; try discriminate; intros [= <- <-]; exists [];
      rewrite app_nil_r; (split; [reflexivity|constructor]). }
    destruct (str_eqb name (B "redirect_udp")) eqn:E4.
    { apply str_eqb_eq in E4. subst. intros H.
      apply build_redirect_iff in H as (h & p & -> & [(Hs & n & Hn & -> & ->)|(Hs & -> & ->)]); eexists;
        [split; [reflexivity|]|split; [symmetry; apply app_nil_r|]]; econstructor; eassumption. }
    destruct (str_eqb name (B "redirect_tcp")) eqn:E5; [|discriminate].
    { apply str_eqb_eq in E5. subst. intros H.
      apply build_redirect_iff in H as (h & p & -> & [(Hs & n & Hn & -> & ->)|(Hs & -> & ->)]); eexists;
        [split; [reflexivity|]|split; [symmetry; apply app_nil_r|]]; econstructor; eassumption. }
  - intros (add & -> & H). inversion H; subst; rewrite ?app_nil_r; try reflexivity.
    + unfold build_target. cbn. unfold lift_, bnd, ret. rewrite H0. reflexivity.
    + unfold build_target. cbn. unfold lift_, bnd, ret. rewrite H0. reflexivity.
    + change (build_redirect G service false [host; port] ls = (ls ++ [(false, host, n)], Ok (TSend (length ls)))).
      apply build_redirect_iff. exists host, port. split; [reflexivity|]. left. eauto.
    + change (build_redirect G service true [host; port] ls = (ls ++ [(true, host, n)], Ok (TSend (length ls)))).
      apply build_redirect_iff. exists host, port. split; [reflexivity|]. left. eauto.
    + change (build_redirect G service false [host; port] ls = (ls, Ok TTrue)).
      apply build_redirect_iff. exists host, port. split; [reflexivity|]. right. auto.
    + change (build_redirect G service true [host; port] ls = (ls, Ok TTrue)).
      apply build_redirect_iff. exists host, port. split; [reflexivity|]. right. auto.
Qed.
Lemma good_target_iff ws j : good_target G service ws <-> exists t add, target_of j ws t add.
Proof.
  split.
  - intros H; inversion H; subst; try (eexists; eexists; econstructor; eassumption);
      try (eexists; eexists; econstructor).
    destruct service eqn:Es.
    + destruct (H1 eq_refl) as [n Hn]. destruct H0; subst; eexists; eexists; econstructor; eauto.
    + destruct H0; subst; eexists; eexists; [apply to_udp_none|apply to_tcp_none]; assumption.
  - intros (t & add & H); inversion H; subst; try (econstructor; eassumption); try econstructor; eauto;
      intros; congruence.
Qed.

Inductive built : nat -> list rule_text -> list (rule G) -> list lspec -> Prop :=
| built_nil j : built j [] [] []
| built_cons j cw tw c t add rws rs adds : cond_of cw c -> target_of j tw t add ->
    built (j + length add) rws rs adds -> built j ((cw, tw) :: rws) ((c, t) :: rs) (add ++ adds).

Lemma build_rule_iff line ls ls' c t :
  build_rule G service line ls = (ls', Ok (c, t)) <->
  exists cw tw add, rule_of line (cw, tw) /\ cond_of cw c /\ target_of (length ls) tw t add /\ ls' = ls ++ add.
Proof.
  unfold build_rule. split.
  - destruct (split_on2 "=" ">" line) as [|a [|b [|]]] eqn:E; try discriminate.
    apply arrow_iff in E as (E & Ha & Hb). unfold bnd, lift_, ret.
    destruct (build_cond a) as [c'|] eqn:Ec; [|discriminate].
    destruct (build_target G service (parts_of b) ls) as [l' [t'|]] eqn:Et; [|discriminate].
    intros [= <- <- <-]. apply build_cond_iff in Ec. apply build_target_iff in Et as (add & -> & Ht).
    exists (parts_of a), (parts_of b), add. split; [|auto].
    exists a, b. cbn [fst snd]. rewrite !words_of_iff. auto.
  - intros (cw & tw & add & (a & b & E & Ha & Hb & H1 & H2) & Hc & Ht & ->). cbn [fst snd] in *.
    apply words_of_iff in H1, H2. subst cw tw.
    rewrite (proj2 (arrow_iff line a b)); [|auto]. unfold bnd, lift_, ret.
    apply build_cond_iff in Hc. rewrite Hc.
    rewrite (proj2 (build_target_iff _ _ (ls ++ add) t)); [reflexivity|eauto].
Qed.
Lemma build_lines_iff lines : forall ls ls' rs,
  build_lines G service lines ls = (ls', Ok rs) <->
  exists rws add, Forall2 rule_of (filter nonempty lines) rws /\ built (length ls) rws rs add /\ ls' = ls ++ add.
Proof.
  induction lines as [|line lines IH]; intros ls ls' rs; cbn [build_lines].
  - split.
    + intros [= <- <-]. exists [], []. rewrite app_nil_r. repeat split; constructor.
    + intros (rws & add & H & Hb & ->). inversion H; subst. inversion Hb; subst. rewrite app_nil_r. reflexivity.
  - rewrite filter_cons. destruct (nonempty line) eqn:En.
    + rewrite decide_True by exact Logic.I. unfold bnd, ret. split.
      * destruct (build_rule G service line ls) as [l1 [[c t]|]] eqn:Er; [|discriminate].
        destruct (build_lines G service lines l1) as [l2 [rs2|]] eqn:El; [|discriminate].
        intros [= <- <-]. apply build_rule_iff in Er as (cw & tw & add & H1 & H2 & H3 & ->).
        apply IH in El as (rws & add2 & K1 & K2 & ->). exists ((cw, tw) :: rws), (add ++ add2).
        split; [constructor; assumption|]. split; [|rewrite app_assoc; reflexivity].
        rewrite app_length in K2. econstructor; eassumption.
      * intros (rws & add & H & Hb & ->). inversion H as [|? [cw tw] ? rws' H1 H2]; subst. inversion Hb; subst.
        rewrite (proj2 (build_rule_iff line ls (ls ++ add0) c t)); [|eauto 10].
        rewrite (proj2 (IH _ ((ls ++ add0) ++ adds) rs0)); [rewrite app_assoc; reflexivity|].
        exists rws', adds. rewrite app_length. auto.
    + rewrite decide_False by (intros []). apply IH.
Qed.
Lemma build_rules_iff config ls' rs :
  build_rules G service config [] = (ls', Ok rs) <->
  exists rws, rules_of config rws /\ built 0 rws rs ls'.
Proof.
  unfold build_rules. rewrite build_lines_iff. cbn [length]. split.
  - intros (rws & add & H & Hb & ->). exists rws. split; [|exact Hb].
    destruct (proj2 (split_on_iff c_nl config (split_on c_nl config)) eq_refl) as (H1 & H2 & H3).
    exists (split_on c_nl config). rewrite filter_nonempty. auto.
  - intros (rws & (lines & H1 & H2 & H3 & H4) & Hb). rewrite filter_nonempty in H4.
    rewrite (proj1 (split_on_iff c_nl config lines)); [|auto]. eauto.
Qed.
Lemma built_good j rws : (exists rs add, built j rws rs add) <->
  Forall (fun r => good_cond (fst r) /\ good_target G service (snd r)) rws.
Proof.
  revert j. induction rws as [|[cw tw] rws IH]; intros j.
  - split; [constructor|]. intros _. do 2 eexists. constructor.
  - rewrite Forall_cons. cbn [fst snd]. split.
    + intros (rs & add & H). inversion H; subst. split; [split|].
      * apply good_cond_iff. eauto.
      * eapply good_target_iff. eauto.
      * eapply IH. eauto.
    + intros [[Hc Ht] H]. apply good_cond_iff in Hc as [c Hc].
      apply (good_target_iff _ j) in Ht as (t & add & Ht).
      apply (IH (j + length add)%nat) in H as (rs & adds & H). do 2 eexists. econstructor; eassumption.
Qed.
Lemma words_of_fun text ws ws' : words_of text ws -> words_of text ws' -> ws = ws'.
Proof. rewrite !words_of_iff. congruence. Qed.
Lemma rule_of_fun line r r' : rule_of line r -> rule_of line r' -> r = r'.
Proof.
  intros (a & b & H1 & H2 & H3 & H4 & H5) (a' & b' & K1 & K2 & K3 & K4 & K5).
  assert ([a; b] = [a'; b']) as [= <- <-].
  { rewrite <- (proj2 (arrow_iff line a b)) by auto. apply arrow_iff. auto. }
  destruct r, r'; cbn [fst snd] in *. f_equal; eapply words_of_fun; eassumption.
Qed.
Lemma rules_of_fun config rws rws' : rules_of config rws -> rules_of config rws' -> rws = rws'.
Proof.
  intros (l & H1 & H2 & H3 & H4) (l' & K1 & K2 & K3 & K4).
  assert (l = l') as <-.
  { rewrite <- (proj1 (split_on_iff c_nl config l)) by auto. apply split_on_iff. auto. }
  clear -H4 K4. revert rws' K4. induction H4 as [|line r lines rs H _ IH]; intros rws' K; inversion K; subst; [reflexivity|].
  f_equal; [eapply rule_of_fun; eassumption|apply IH; assumption].
Qed.
End build.

(** ** Routing *)
Section routing.
Context (G : engine) {S : Type} (process_inner : str -> str -> str -> list str -> M S unit) (sv : bool).
Notation rst := (@rst S).

Lemma rebuild_text m : rebuild m = text_of m.
Proof. destruct m as [[t k] fs]. unfold rebuild, text_of, rebuild_message. rewrite barred_join. reflexivity. Qed.
Lemma text_nonempty m : text_of m <> [].
Proof. destruct m as [[t k] fs]. unfold text_of. destruct k; discriminate. Qed.

Lemma tp_write_ok text p : text <> [] -> snd (tp_write text p) = Ok tt.
Proof.
  intros Ht. unfold tp_write. destruct (tp_paused p); [reflexivity|]. destruct (ends_crlf text); [reflexivity|].
  destruct (last text) eqn:E; [destruct (eqc _ _); reflexivity|]. apply last_None in E. contradiction.
Qed.
Lemma link_write_ok text l : text <> [] -> snd (link_write text l) = Ok tt.
Proof.
  intros Ht. destruct l as [u|f]; [reflexivity|]. unfold link_write, tf_write, on_proto.
  destruct (tf_proto f) as [p|]; [|reflexivity]. pose proof (tp_write_ok text p Ht) as H.
  destruct (tp_write text p) as [p' r]. exact H.
Qed.

Definition send1 (s : rst) (it : nat * str) : rst :=
  RSt (r_proc s) (alter (fun l => fst (link_write (snd it) l)) (fst it) (r_links s)) (r_bad s).
Definition sends (sent : list (nat * str)) (s : rst) : rst := fold_left send1 sent s.
Lemma sends_app a b s : sends (a ++ b) s = sends b (sends a s).
Proof. apply fold_left_app. Qed.
Lemma sends_proc sent s : r_proc (sends sent s) = r_proc s.
Proof. revert s. induction sent as [|it sent IH]; intros s; [reflexivity|]. cbn. rewrite IH. reflexivity. Qed.
Lemma sends_bad sent s : r_bad (sends sent s) = r_bad s.
Proof. revert s. induction sent as [|it sent IH]; intros s; [reflexivity|]. cbn. rewrite IH. reflexivity. Qed.
Lemma sends_length sent s : length (r_links (sends sent s)) = length (r_links s).
Proof. revert s. induction sent as [|it sent IH]; intros s; [reflexivity|]. cbn. rewrite IH. cbn. apply alter_length. Qed.
Definition texts_to (i : nat) (sent : list (nat * str)) : list str :=
  map snd (filter (fun it => fst it = i) sent).
Definition written (texts : list str) (l : rlink) : rlink := fold_left (fun l t => fst (link_write t l)) texts l.
Lemma sends_links sent s i : r_links (sends sent s) !! i = written (texts_to i sent) <$> r_links s !! i.
Proof.
  revert s. induction sent as [|[j t] sent IH]; intros s.
  - cbn. destruct (r_links s !! i); reflexivity.
  - cbn [sends fold_left]. fold (sends sent (send1 s (j, t))). rewrite IH. unfold texts_to. rewrite filter_cons. cbn [send1 r_links fst snd].
    destruct (decide (j = i)) as [->|Hn].
    + rewrite list_lookup_alter. destruct (r_links s !! i); reflexivity.
    + rewrite list_lookup_alter_ne by exact Hn. reflexivity.
Qed.
Lemma send_ok i text (s : rst) : (i < length (r_links s))%nat -> text <> [] ->
  send i text s = (send1 s (i, text), Ok tt).
Proof.
  intros Hi Ht. unfold send, send1. destruct (lookup_lt_is_Some_2 _ _ Hi) as [l Hl]. rewrite Hl.
  pose proof (link_write_ok text l Ht) as Hr. cbn [fst snd]. destruct (link_write text l) as [l' r] eqn:El. cbn in Hr. subst r.
  enough (<[i:=l']> (r_links s) = alter (fun l => fst (link_write text l)) i (r_links s)) as -> by reflexivity.
  apply list_eq. intros k. destruct (decide (k = i)) as [->|Hn].
  - rewrite list_lookup_insert by exact Hi. rewrite list_lookup_alter, Hl. cbn. rewrite El. reflexivity.
  - rewrite list_lookup_insert_ne, list_lookup_alter_ne by congruence. reflexivity.
Qed.

Ltac same_rx := match goal with H1 : rx_compile _ ?p = Ok ?a, H2 : rx_compile _ ?p = Ok ?b |- _ =>
  assert (b = a) by congruence; subst b; clear H2 end.
Lemma target_run_iff j tw t add m (s s' : rst) ms :
  target_of G sv j tw t add -> t <> TTrue -> (j + length add <= length (r_links s))%nat ->
  target_run G t m s = (s', Ok ms) <-> exists ts, effect G tw m ms ts /\ s' = sends (map (pair j) ts) s.
Proof.
  intros Ht Hnt Hl. destruct m as [[mt k] fs]. inversion Ht; subst; cbn [target_run]; try congruence; try discriminate.
  - split; [intros [= <- <-]; exists []; split; [constructor|reflexivity]|].
    intros (ts & H & ->). inversion H; subst. reflexivity.
  - unfold bnd, lift_, ret. split.
    + destruct (rx_sub G r repl k) as [k'|] eqn:Es; [|discriminate]. intros [= <- <-]. exists [].
      split; [|reflexivity]. econstructor; eassumption.
    + intros (ts & He & ->). inversion He; subst. same_rx.
      match goal with H : rx_sub _ _ _ _ = Ok _ |- _ => rewrite H end. reflexivity.
  - unfold bnd, lift_, ret. split.
    + destruct (rx_sub G r repl k) as [k'|] eqn:Es; [|discriminate]. intros [= <- <-]. exists [].
      split; [|reflexivity]. destruct (str_eqb d (B "dup")) eqn:Ed; cbn [andb].
      * apply str_eqb_eq in Ed. subst d. destruct (rx_match G r k) eqn:Em; econstructor; try eassumption; auto.
      * apply str_eqb_neq in Ed. econstructor; try eassumption; auto.
    + intros (ts & He & ->). inversion He; subst.
      * same_rx. match goal with H : rx_sub _ _ _ _ = Ok _ |- _ => rewrite H end.
        match goal with H : _ \/ _ |- _ => destruct H as [Hd|Hm]; [apply str_eqb_neq in Hd; rewrite Hd|rewrite Hm, andb_false_r]; reflexivity end.
      * same_rx. match goal with H : rx_sub _ _ _ _ = Ok _ |- _ => rewrite H end.
        match goal with H : rx_match _ _ _ = _ |- _ => rewrite H end. reflexivity.
  - split.
    + intros [= <- <-]. exists []. split; [constructor|reflexivity].
    + intros (ts & He & ->). inversion He; subst. reflexivity.
  - split.
    + intros [= <- <-]. exists []. split; [|reflexivity]. destruct (str_eqb d (B "dup")) eqn:Ed.
      * apply str_eqb_eq in Ed. subst d. constructor.
      * apply str_eqb_neq in Ed. constructor. exact Ed.
    + intros (ts & He & ->). inversion He; subst; [|reflexivity].
      match goal with H : d <> _ |- _ => apply str_eqb_neq in H; rewrite H end. reflexivity.
  - cbn in Hl. unfold bnd, ret. rewrite rebuild_text, send_ok; [|lia|apply text_nonempty]. split.
    + intros [= <- <-]. eexists. split; [constructor|reflexivity].
    + intros (ts & He & ->). inversion He; subst; reflexivity.
  - cbn in Hl. unfold bnd, ret. rewrite rebuild_text, send_ok; [|lia|apply text_nonempty]. split.
    + intros [= <- <-]. eexists. split; [constructor|reflexivity].
    + intros (ts & He & ->). inversion He; subst; reflexivity.
Qed.
Lemma target_run_exn j tw t add m (s s' : rst) e :
  target_of G sv j tw t add -> t <> TTrue -> (j + length add <= length (r_links s))%nat ->
  target_run G t m s = (s', Exn e) -> s' = s.
Proof.
  intros Ht Hnt Hl. destruct m as [[mt k] fs]. inversion Ht; subst; cbn [target_run]; try congruence; try discriminate.
  - unfold bnd, lift_, ret. destruct (rx_sub G r repl k); [discriminate|]. intros [= <- _]. reflexivity.
  - unfold bnd, lift_, ret. destruct (rx_sub G r repl k); [discriminate|]. intros [= <- _]. reflexivity.
  - cbn in Hl. unfold bnd, ret. rewrite rebuild_text, send_ok; [discriminate|lia|apply text_nonempty].
  - cbn in Hl. unfold bnd, ret. rewrite rebuild_text, send_ok; [discriminate|lia|apply text_nonempty].
Qed.

Lemma rule_run_iff j cw tw c t add : cond_of cw c -> target_of G sv j tw t add -> t <> TTrue ->
  forall ms (s s' : rst) out, (j + length add <= length (r_links s))%nat ->
  rule_run G (c, t) ms s = (s', Ok out) <->
  exists ts, applies_all G (cw, tw) ms out ts /\ s' = sends (map (pair j) ts) s.
Proof.
  intros Hc Ht Hnt. induction ms as [|m ms IH]; intros s s' out Hl; cbn [rule_run fst snd].
  - split.
    + intros [= <- <-]. exists []. split; [constructor|reflexivity].
    + intros (ts & H & ->). inversion H; subst. reflexivity.
  - unfold bnd, lift_, ret. split.
    + destruct (cond_run c m) as [b|] eqn:Ec; [|discriminate]. apply (matches_iff cw c m b Hc) in Ec. destruct b.
      * destruct (target_run G t m s) as [s1 [here|]] eqn:Et; [|discriminate].
        apply (target_run_iff j tw t add) in Et as (ts & He & ->); [|assumption..].
        destruct (rule_run G (c, t) ms _) as [s2 [rest|]] eqn:Er; [|discriminate].
        apply IH in Er as (tss & Ha & ->); [|rewrite sends_length; exact Hl]. intros [= <- <-].
        exists (ts ++ tss). split; [econstructor; [eapply ap_hit; eassumption|exact Ha]|].
        rewrite map_app, sends_app. reflexivity.
      * destruct (rule_run G (c, t) ms s) as [s2 [rest|]] eqn:Er; [|discriminate].
        apply IH in Er as (tss & Ha & ->); [|exact Hl]. intros [= <- <-].
        exists ([] ++ tss). split; [|reflexivity].
        apply (aa_cons G (cw, tw) m ms [m] rest [] tss); [apply ap_skip; assumption|exact Ha].
    + intros (ts0 & H & ->). inversion H as [|? ? here rest ts tss Ha1 Ha2]; subst. inversion Ha1; subst.
      * match goal with H : matches cw m _ |- _ => apply (matches_iff cw c m _ Hc) in H; rewrite H end.
        rewrite (proj2 (IH s (sends (map (pair j) tss) s) rest Hl)); [reflexivity|eauto].
      * match goal with H : matches cw m _ |- _ => apply (matches_iff cw c m _ Hc) in H; rewrite H end.
        rewrite (proj2 (target_run_iff j tw t add m s (sends (map (pair j) ts) s) here Ht Hnt Hl)); [|eauto].
        rewrite (proj2 (IH _ (sends (map (pair j) tss) (sends (map (pair j) ts) s)) rest ltac:(rewrite sends_length; exact Hl)));
          [|eauto]. rewrite map_app, sends_app. reflexivity.
Qed.
(** whatever happens, the state is changed by sends only *)
Lemma rule_run_proc j cw tw c t add : cond_of cw c -> target_of G sv j tw t add -> t <> TTrue ->
  forall ms (s s' : rst) r, (j + length add <= length (r_links s))%nat ->
  rule_run G (c, t) ms s = (s', r) -> exists ts, s' = sends (map (pair j) ts) s.
Proof.
  intros Hc Ht Hnt. induction ms as [|m ms IH]; intros s s' r Hl; cbn [rule_run fst snd].
  - intros [= <- <-]. exists []. reflexivity.
  - unfold bnd, lift_, ret. destruct (cond_run c m) as [b|]; [|intros [= <- <-]; exists []; reflexivity]. destruct b.
    + destruct (target_run G t m s) as [s1 [here|]] eqn:Et.
      * apply (target_run_iff j tw t add) in Et as (ts & He & ->); [|assumption..].
        destruct (rule_run G (c, t) ms _) as [s2 r2] eqn:Er.
        apply IH in Er as (tss & ->); [|rewrite sends_length; exact Hl].
        intros H. exists (ts ++ tss). rewrite map_app, sends_app. destruct r2; congruence.
      * apply (target_run_exn j tw t add) in Et; [|assumption..]. subst. intros [= <- <-]. exists []. reflexivity.
    + destruct (rule_run G (c, t) ms s) as [s2 r2] eqn:Er.
      apply IH in Er as (tss & ->); [|exact Hl]. intros H. exists tss. destruct r2; congruence.
Qed.

Lemma target_of_redirect j tw t add : target_of G sv j tw t add -> t <> TTrue -> length add = is_redirect ([], tw).
Proof.
  intros H Hn. unfold is_redirect, redirect. inversion H; subst; cbn [snd length]; try reflexivity; try congruence.
Qed.
Lemma is_redirect_cond cw cw' tw : is_redirect (cw, tw) = is_redirect (cw', tw).
Proof. reflexivity. Qed.
Lemma applies_all_nil r out ts : applies_all G r [] out ts <-> out = [] /\ ts = [].
Proof. split; [intros H; inversion H; auto|intros [-> ->]; constructor]. Qed.
Lemma routes_nil rws : forall j, routes G j rws [] [] [].
Proof.
  induction rws as [|r rws IH]; intros j; [constructor|].
  change (routes G j (r :: rws) [] [] (map (pair j) [] ++ [])). econstructor; [constructor|apply IH].
Qed.
Lemma routes_nil_inv rws : forall j out sent, routes G j rws [] out sent -> out = [] /\ sent = [].
Proof.
  induction rws as [|r rws IH]; intros j out sent H; inversion H as [|? ? ? ? mid ? ts sent' Ha Hs]; subst; [auto|].
  apply applies_all_nil in Ha as [-> ->]. apply IH in Hs as [-> ->]. auto.
Qed.
Definition survivors (o : option (list metric)) : list metric := default [] o.
Lemma rules_run_iff rws : forall rs adds j ms (s s' : rst) out,
  built G sv j rws rs adds -> Forall (fun r => snd r <> TTrue) rs -> (j + length adds <= length (r_links s))%nat ->
  (exists o, rules_run G rs ms s = (s', Ok o) /\ survivors o = out) <->
  exists sent, routes G j rws ms out sent /\ s' = sends sent s.
Proof.
  induction rws as [|[cw tw] rws IH]; intros rs adds j ms s s' out Hb Hok Hl;
    inversion Hb as [|? ? ? c t add ? rs0 adds0 H5 H6 H7]; subst; cbn [rules_run].
  - split.
    + intros (o & [= <- <-] & <-). exists []. split; [constructor|reflexivity].
    + intros (sent & H & ->). inversion H; subst. exists (Some out). split; reflexivity.
  - rewrite app_length in Hl. inversion_clear Hok as [|? ? Hnt Hok']. cbn [snd] in Hnt. destruct ms as [|m ms].
    + split.
      * intros (o & [= <- <-] & <-). exists []. split; [apply routes_nil|reflexivity].
      * intros (sent & H & ->). apply routes_nil_inv in H as [-> ->]. exists None. split; reflexivity.
    + unfold bnd. pose proof (target_of_redirect _ _ _ _ H6 Hnt) as Hr. split.
      * intros (o & H & <-). destruct (rule_run G (c, t) (m :: ms) s) as [s1 [mid|]] eqn:Er; [|discriminate].
        apply (rule_run_iff j cw tw c t add) in Er as (ts & Ha & ->); [|assumption|assumption|assumption|lia].
        destruct (proj1 (IH rs0 adds0 (j + length add)%nat mid (sends (map (pair j) ts) s) s' (survivors o) H7 Hok' ltac:(rewrite sends_length; lia)))
          as (sent & Hs & ->); [eauto|].
        exists (map (pair j) ts ++ sent). split; [|rewrite sends_app; reflexivity].
        econstructor; [exact Ha|]. rewrite (is_redirect_cond cw []), <- Hr. exact Hs.
      * intros (sent0 & H & ->). inversion H as [|? ? ? ? mid ? ts sent Ha Hs]; subst.
        rewrite (proj2 (rule_run_iff j cw tw c t add H5 H6 Hnt (m :: ms) s (sends (map (pair j) ts) s) mid ltac:(lia))); [|eauto].
        apply (IH rs0 adds0 (j + length add)%nat); [assumption|assumption|rewrite sends_length; lia|].
        exists sent. rewrite sends_app. split; [|reflexivity]. rewrite (is_redirect_cond cw []), <- Hr in Hs. exact Hs.
Qed.
Lemma rules_run_proc rws : forall rs adds j ms (s s' : rst) r,
  built G sv j rws rs adds -> Forall (fun r => snd r <> TTrue) rs -> (j + length adds <= length (r_links s))%nat ->
  rules_run G rs ms s = (s', r) -> exists sent, s' = sends sent s.
Proof.
  induction rws as [|[cw tw] rws IH]; intros rs adds j ms s s' r Hb Hok Hl;
    inversion Hb as [|? ? ? c t add ? rs0 adds0 H5 H6 H7]; subst; cbn [rules_run].
  - intros [= <- _]. exists []. reflexivity.
  - rewrite app_length in Hl. inversion_clear Hok as [|? ? Hnt Hok']. cbn [snd] in Hnt. destruct ms as [|m ms]; [intros [= <- _]; exists []; reflexivity|].
    unfold bnd. destruct (rule_run G (c, t) (m :: ms) s) as [s1 r1] eqn:Er.
    apply (rule_run_proc j cw tw c t add) in Er as (ts & ->); [|assumption|assumption|assumption|lia].
    destruct r1 as [mid|e]; [|intros [= <- _]; eauto].
    intros H. eapply IH in H as (sent & ->); [|eassumption|assumption|rewrite sends_length; lia].
    exists (map (pair j) ts ++ sent). rewrite sends_app. reflexivity.
Qed.

(** the processor's own method, on each metric in turn *)
Inductive handed : list metric -> S -> S -> res unit -> Prop :=
| ha_end p : handed [] p p (Ok tt)
| ha_next t k fs ms p p1 p2 r : process_inner (text_of (t, k, fs)) t k fs p = (p1, Ok tt) -> handed ms p1 p2 r ->
    handed ((t, k, fs) :: ms) p p2 r
| ha_raise t k fs ms p p1 e : process_inner (text_of (t, k, fs)) t k fs p = (p1, Exn e) ->
    handed ((t, k, fs) :: ms) p p1 (Exn e).
Lemma hand_over_iff ms : forall s s' r, hand_over process_inner ms s = (s', r) <->
  exists p', handed ms (r_proc s) p' r /\ s' = RSt p' (r_links s) (r_bad s).
Proof.
  induction ms as [|[[t k] fs] ms IH]; intros s s' r; cbn [hand_over].
  - split.
    + intros [= <- <-]. exists (r_proc s). split; [constructor|destruct s; reflexivity].
    + intros (p' & H & ->). inversion H; subst. destruct s; reflexivity.
  - unfold bnd, inner. cbn [fst snd]. rewrite rebuild_text. split.
    + destruct (process_inner _ t k fs (r_proc s)) as [p1 [[]|e]] eqn:E.
      * intros H. apply IH in H as (p' & Hh & ->). exists p'. split; [econstructor; eassumption|reflexivity].
      * intros [= <- <-]. exists p1. split; [constructor; exact E|reflexivity].
    + intros (p' & H & ->). inversion H; subst.
      * match goal with H : process_inner _ _ _ _ _ = _ |- _ => rewrite H end. apply IH. exists p'. auto.
      * match goal with H : process_inner _ _ _ _ _ = _ |- _ => rewrite H end. reflexivity.
Qed.
Lemma handed_total ms p : exists p' r, handed ms p p' r.
Proof.
  revert p. induction ms as [|[[t k] fs] ms IH]; intros p; [do 2 eexists; constructor|].
  destruct (process_inner (text_of (t, k, fs)) t k fs p) as [p1 [[]|e]] eqn:E.
  - destruct (IH p1) as (p' & r & H). do 2 eexists. eapply ha_next; eassumption.
  - do 2 eexists. eapply ha_raise; eassumption.
Qed.
Lemma handed_fun ms p p1 r1 p2 r2 : handed ms p p1 r1 -> handed ms p p2 r2 -> p1 = p2 /\ r1 = r2.
Proof.
  intros H. revert p2 r2. induction H; intros q2 q H'; inversion H'; subst; try congruence; auto.
  - apply IHhanded. congruence.
  - split; congruence.
Qed.

Definition whole (rws : list rule_text) (rs : list (rule G)) (s : rst) : Prop :=
  exists adds, built G sv 0 rws rs adds /\ Forall (fun r => snd r <> TTrue) rs /\ (length adds <= length (r_links s))%nat.
Lemma route_spec rws rs message t k fs (s : rst) : whole rws rs s ->
  (forall out sent, routes G 0 rws [(t, k, fs)] out sent ->
     exists p' r, handed out (r_proc s) p' r /\
       route G process_inner rs message t k fs s = (RSt p' (r_links (sends sent s)) (r_bad s), r)) /\
  ((~ exists out sent, routes G 0 rws [(t, k, fs)] out sent) ->
     exists sent e, route G process_inner rs message t k fs s = (sends sent s, Exn e)).
Proof.
  intros (adds & Hb & Hok & Hl). unfold route, bnd. split.
  - intros out sent Hr.
    destruct (proj2 (rules_run_iff rws rs adds 0 [(t, k, fs)] s (sends sent s) out Hb Hok Hl)) as (o & Ho & Hout); [eauto|].
    rewrite Ho. destruct (handed_total out (r_proc s)) as (p' & r & Hh). exists p', r. split; [exact Hh|].
    destruct o as [ms|]; cbn in Hout; subst out.
    + apply hand_over_iff. exists p'. rewrite sends_proc, sends_bad. auto.
    + inversion Hh; subst. cbn. rewrite <- (sends_proc sent s), <- (sends_bad sent s). destruct (sends sent s); reflexivity.
  - intros Hn. destruct (rules_run G rs [(t, k, fs)] s) as [s' r] eqn:E.
    destruct r as [o|e].
    + exfalso. apply Hn. destruct (proj1 (rules_run_iff rws rs adds 0 [(t, k, fs)] s s' (survivors o) Hb Hok Hl)) as (sent & Hs & _); eauto.
    + eapply rules_run_proc in E as (sent & ->); [|eassumption|exact Hok|exact Hl]. eauto.
Qed.
End routing.
