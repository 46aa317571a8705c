(** Difference reporters, connection counts and CPU statistics of process.py. *)
From Verif Require Import Base Num StrFacts LineSpec LineFacts FloatFacts Process ProcessSpec ProcessFacts ClientServer SeriesFacts.

(** ** report_counters *)
Section counters.
Context {V : Type} (minus : V -> V -> V).
Notation dict := (gmap str V).

Lemma differences_ok (new last r : dict) : differences minus new last = Ok r <-> covered new last /\ minus_dict minus new last r.
Proof.
  unfold differences.
  assert (Hc : forallb (fun kv => bool_decide (is_Some (last !! fst kv))) (map_to_list new) = true <-> covered new last).
  { rewrite forallb_forall. split.
    - intros H k [v Hv]. specialize (H (k, v)). cbn in H. apply bool_decide_eq_true in H; [exact H|].
      apply elem_of_list_In, elem_of_map_to_list, Hv.
    - intros H [k v] Hin. apply bool_decide_eq_true. apply H. exists v.
      apply elem_of_map_to_list, elem_of_list_In, Hin. }
  assert (Hm : forall k, merge (fun a b => match a, b with Some x, Some y => Some (minus x y) | _, _ => None end) new last !! k =
              match new !! k, last !! k with Some x, Some y => Some (minus x y) | _, _ => None end).
  { intros k. rewrite lookup_merge. destruct (new !! k), (last !! k); reflexivity. }
  assert (Hd : minus_dict minus new last (merge (fun a b => match a, b with Some x, Some y => Some (minus x y) | _, _ => None end) new last)).
  { intros k d. rewrite Hm. split.
    - destruct (new !! k) as [a|], (last !! k) as [b|]; intros H; inversion H; eauto.
    - intros (a & b & -> & -> & ->). reflexivity. }
  destruct (forallb _ _) eqn:E.
  - split.
    + intros H; inversion H; subst. split; [apply Hc; reflexivity|exact Hd].
    + intros [_ H]. f_equal. apply map_eq. intros k. apply option_eq. intros d. rewrite (H k d). apply Hd.
  - split; [discriminate|]. intros [H _]. apply Hc in H. discriminate.
Qed.
Lemma differences_exn (new last : dict) e : differences minus new last = Exn e <-> e = KeyError /\ ~ covered new last.
Proof.
  destruct (differences minus new last) as [r|e'] eqn:E.
  - apply differences_ok in E as [H _]. split; [discriminate|]. intros [_ H']. contradiction.
  - assert (e' = KeyError) as ->.
    { unfold differences in E. destruct (forallb _ _); inversion E; reflexivity. }
    split.
    + intros H; inversion H. split; [reflexivity|]. intros Hc.
      assert (exists r, minus_dict minus new last r) as (r & Hr).
      { unfold differences in E. destruct (forallb (fun kv => bool_decide (is_Some (last !! fst kv))) (map_to_list new)) eqn:Eb; [discriminate|].
        exfalso. assert (forallb (fun kv => bool_decide (is_Some (last !! fst kv))) (map_to_list new) = true); [|congruence].
        apply forallb_forall. intros [k v] Hin. apply bool_decide_eq_true, Hc. exists v.
        apply elem_of_map_to_list, elem_of_list_In, Hin. }
      assert (differences minus new last = Ok r) by (apply differences_ok; auto). congruence.
    + intros [-> _]. reflexivity.
Qed.
Lemma reports_done (xs : list (res dict)) : reports minus xs GDone = map (fun _ => Exn StopIteration) xs.
Proof. induction xs as [|x xs IH]; [reflexivity|]. cbn. rewrite IH. reflexivity. Qed.
Theorem reports_iff (xs : list (res dict)) : forall last rs, reports minus xs (GLive last) = rs <-> reported minus last xs rs.
Proof.
  induction xs as [|x xs IH]; intros last rs.
  - cbn. split; [intros <-; constructor|]. intros H; inversion H; reflexivity.
  - cbn [reports report]. destruct x as [new|e].
    + destruct last as [l|].
      * destruct (differences minus new l) as [r|e] eqn:E.
        -- pose proof E as E'. apply differences_ok in E' as [Hc Hd]. split.
           ++ intros <-. apply rp_next; [exact Hc|exact Hd|apply IH; reflexivity].
           ++ intros H; inversion H; subst; [|contradiction].
              f_equal; [|apply IH; assumption].
              assert (differences minus new l = Ok r0) by (apply differences_ok; auto). congruence.
        -- pose proof E as E'. apply differences_exn in E' as [-> Hc]. rewrite reports_done. split.
           ++ intros <-. apply rp_new_key, Hc.
           ++ intros H; inversion H; subst; [contradiction|reflexivity].
      * split; [intros <-; apply rp_first, IH; reflexivity|]. intros H; inversion H; subst. f_equal. apply IH; assumption.
    + rewrite reports_done. split; [intros <-; apply rp_failed|]. intros H; inversion H; reflexivity.
Qed.
End counters.

Section telescope.
Context {V : Type} (minus plus : V -> V -> V).
Notation dict := (gmap str V).
(** the sum of the differences reported for [k] *)
Fixpoint added (k : str) (rs : list (res dict)) (acc : V) : V :=
  match rs with
  | [] => acc
  | Ok m :: rs' => added k rs' (match m !! k with Some d => plus acc d | None => acc end)
  | Exn _ :: rs' => added k rs' acc
  end.
Lemma telescoping (Ht : forall a b c, plus (minus b a) (minus c b) = minus c a) :
  forall (news : list dict) (first prev : dict) (k : str) (a b : V),
  (forall m, In m news -> dom m = dom first) -> dom prev = dom first ->
  first !! k = Some a -> prev !! k = Some b ->
  exists z, stdpp.list.last (prev :: news) ≫= (fun m => m !! k) = Some z /\
    Forall (fun r => exists m, r = Ok m /\ dom m = dom first) (reports minus (map Ok news) (GLive (Some prev))) /\
    added k (reports minus (map Ok news) (GLive (Some prev))) (minus b a) = minus z a.
Proof.
  induction news as [|new news IH]; intros first prev k a b Hn Hp Ha Hb.
  - exists b. cbn. split; [exact Hb|]. split; [constructor|reflexivity].
  - assert (Hd : dom new = dom first) by (apply Hn; left; reflexivity).
    assert (Hc : covered new prev).
    { intros k' Hk'. apply elem_of_dom. rewrite Hp, <- Hd. apply elem_of_dom, Hk'. }
    assert (exists c, new !! k = Some c) as (c & Hc').
    { assert (k ∈ dom new) as H by (rewrite Hd; apply elem_of_dom; eauto). apply elem_of_dom in H. destruct H; eauto. }
    destruct (differences minus new prev) as [r|e] eqn:E; [|apply differences_exn in E as [_ E]; contradiction].
    pose proof E as E'. apply differences_ok in E' as [_ Hr].
    destruct (IH first new k a c) as (z & Hz & HF & Hsum); [intros m Hm; apply Hn; right; exact Hm|exact Hd|exact Ha|exact Hc'|].
    exists z. split; [exact Hz|]. cbn [map reports report]. rewrite E. split.
    + constructor; [|exact HF]. exists r. split; [reflexivity|]. apply set_eq. intros k'. rewrite !elem_of_dom. split.
      * intros [d Hd']. apply Hr in Hd' as (x & y & Hx & Hy & _). apply elem_of_dom. rewrite <- Hd. apply elem_of_dom. eauto.
      * intros Hk'. assert (is_Some (new !! k')) as [x Hx] by (apply elem_of_dom; rewrite Hd; apply elem_of_dom, Hk').
        destruct (Hc k') as [y Hy]; [eauto|]. exists (minus x y). apply Hr. eauto.
    + cbn [added]. assert (r !! k = Some (minus c b)) as -> by (apply Hr; eauto). rewrite Ht. exact Hsum.
Qed.
End telescope.
Theorem telescope_int (first : gmap str Z) (rest : list (gmap str Z)) k a z :
  (forall m, In m rest -> dom m = dom first) -> first !! k = Some a ->
  stdpp.list.last (first :: rest) ≫= (fun m => m !! k) = Some z ->
  exists rs, reports Z.sub (map Ok (first :: rest)) (GLive None) = Ok ∅ :: rs /\
    Forall (fun r => exists m, r = Ok m /\ dom m = dom first) rs /\
    added Z.add k rs 0 = z - a.
Proof.
  intros Hn Ha Hz. cbn [map reports report]. eexists. split; [reflexivity|].
  destruct (telescoping Z.sub Z.add) with (news := rest) (first := first) (prev := first) (k := k) (a := a) (b := a)
    as (z' & Hz' & HF & Hs); try (intros; lia); auto.
  rewrite Hz in Hz'. inversion Hz'; subst. split; [exact HF|]. rewrite <- Hs. f_equal. lia.
Qed.
(** the same for any numbers whose differences add exactly *)
Theorem telescope_any {V} (minus plus : V -> V -> V) (zero : V) (first : gmap str V) (rest : list (gmap str V)) k a z :
  (forall a b c, plus (minus b a) (minus c b) = minus c a) -> (forall a, minus a a = zero) ->
  (forall m, In m rest -> dom m = dom first) -> first !! k = Some a ->
  stdpp.list.last (first :: rest) ≫= (fun m => m !! k) = Some z ->
  exists rs, reports minus (map Ok (first :: rest)) (GLive None) = Ok ∅ :: rs /\ added plus k rs zero = minus z a.
Proof.
  intros Ht H0 Hn Ha Hz. cbn [map reports report]. eexists. split; [reflexivity|].
  destruct (telescoping minus plus) with (news := rest) (first := first) (prev := first) (k := k) (a := a) (b := a)
    as (z' & Hz' & HF & Hs); auto.
  rewrite Hz in Hz'. inversion Hz'; subst. rewrite <- Hs, H0. reflexivity.
Qed.

(** ** connections *)
Definition no_capital (s : str) : Prop := forall c, In c s -> ~ In c (B "ABCDEFGHIJKLMNOPQRSTUVWXYZ").
Lemma lower_same a l : ~ In l (B "ABCDEFGHIJKLMNOPQRSTUVWXYZ") -> (same_letter a l <-> to_lower a = l).
Proof.
  intros Hl. destruct (is_lower l) eqn:El; [apply same_letter_iff, El|].
  assert (Hu : is_upper l = false).
  { destruct (is_upper l) eqn:E; [|reflexivity]. exfalso. apply Hl.
    pose proof (ascii_cases (fun c => implb (is_upper c) (has c (B "ABCDEFGHIJKLMNOPQRSTUVWXYZ"))) ltac:(vm_compute; reflexivity) l) as H.
    cbn beta in H. rewrite E in H. apply has_In, H. }
  unfold same_letter. split.
  - intros [->|[H _]].
    + unfold to_lower. rewrite Hu. reflexivity.
    + unfold is_lower, code in El. lia.
  - intros <-. left. unfold to_lower in *. destruct (is_upper a) eqn:Ea; [|reflexivity]. exfalso.
    pose proof (ascii_cases (fun c => implb (is_upper c) (is_lower (ascii_of_N (Z.to_N (code c + 32))))) ltac:(vm_compute; reflexivity) a) as H.
    cbn beta in H. rewrite Ea in H. cbn in H. congruence.
Qed.
Lemma lower_word s w : no_capital w -> (word s w <-> map to_lower s = w).
Proof.
  revert s. induction w as [|l w IH]; intros s Hw.
  - unfold word. split; [intros H; inversion H; reflexivity|]. intros H. destruct s; [constructor|discriminate].
  - assert (Hl : ~ In l (B "ABCDEFGHIJKLMNOPQRSTUVWXYZ")) by (apply Hw; left; reflexivity).
    assert (Hw' : no_capital w) by (intros c Hc; apply Hw; right; exact Hc). split.
    + intros H. inversion H as [|a ? s' ? Ha Hs]; subst. cbn. f_equal; [apply lower_same; assumption|apply IH; assumption].
    + intros H. destruct s as [|a s]; [discriminate|]. cbn in H. injection H as H1 H2.
      constructor; [apply lower_same; assumption|apply IH; assumption].
Qed.
Lemma lowered_no_capital s : no_capital (map to_lower s).
Proof.
  intros c Hc. apply in_map_iff in Hc as (a & <- & _).
  pose proof (ascii_cases (fun c => negb (has (to_lower c) (B "ABCDEFGHIJKLMNOPQRSTUVWXYZ"))) ltac:(vm_compute; reflexivity) a) as H.
  cbn beta in H. intros Hin. apply has_In in Hin. rewrite Hin in H. discriminate.
Qed.
Lemma tally_nonneg {T} (P : T -> Prop) st l n : tally P st l n -> 0 <= n.
Proof. induction 1; lia. Qed.
Lemma tally_app {T} (P : T -> Prop) st l1 l2 n1 n2 : tally P st l1 n1 -> tally P st l2 n2 -> tally P st (l1 ++ l2) (n1 + n2).
Proof.
  induction 1 as [|t s l n Ht Hw H IH|t s l n Hn H IH]; intros H2; cbn [app].
  - exact H2.
  - replace (n + 1 + n2) with (n + n2 + 1) by lia. apply ta_hit; auto.
  - apply ta_miss; auto.
Qed.
Lemma tally_fun {T} (P : T -> Prop) st l n n' : tally P st l n -> tally P st l n' -> n = n'.
Proof.
  intros H. revert n'. induction H as [|t s l n Ht Hw H IH|t s l n Hn H IH]; intros n' H'; inversion H'; subst; try reflexivity.
  - f_equal. apply IH; assumption.
  - exfalso; auto.
  - exfalso; auto.
  - apply IH; assumption.
Qed.
Definition stream (t : sock) : Prop := t = SockStream.
Theorem net_stats l prefix status n : no_capital status -> tally stream status l n ->
  get_net_stats (Some l) prefix !! (prefix ++ B ".status." ++ status) = if n =? 0 then None else Some n.
Proof.
  intros Hst. unfold get_net_stats. revert n. induction l as [|[t s] l IH] using rev_ind; intros n Hn.
  - inversion Hn; subst. reflexivity.
  - rewrite fold_left_app. cbn [fold_left].
    assert (Hpre : exists n0, tally stream status l n0).
    { clear -Hst. induction l as [|[t s] l [n0 IH]]; [exists 0; constructor|].
      destruct t; [|exists n0; apply ta_miss; [intros [H _]; discriminate|exact IH]].
      destruct (decide (map to_lower s = status)) as [E|E].
      - exists (n0 + 1). apply ta_hit; [reflexivity|apply lower_word; assumption|exact IH].
      - exists n0. apply ta_miss; [intros [_ H]; apply E, lower_word; assumption|exact IH]. }
    destruct Hpre as (n0 & Hn0). specialize (IH n0 Hn0). pose proof (tally_nonneg _ _ _ _ Hn0) as Hpos.
    set (m := fold_left (net_stats_step prefix) l ∅) in *. unfold net_stats_step. cbn [fst snd].
    destruct t.
    + destruct (decide (map to_lower s = status)) as [E|E].
      * assert (tally stream status (l ++ [(SockStream, s)]) (n0 + (0 + 1))) as H2.
        { apply tally_app; [exact Hn0|]. apply ta_hit; [reflexivity|apply lower_word; assumption|constructor]. }
        rewrite (tally_fun _ _ _ _ _ Hn H2). rewrite E. destruct (n0 =? 0) eqn:E0.
        -- apply Z.eqb_eq in E0. subst n0. rewrite IH. rewrite lookup_insert. reflexivity.
        -- apply Z.eqb_neq in E0. rewrite IH, lookup_insert. destruct (n0 + (0 + 1) =? 0) eqn:E1; [apply Z.eqb_eq in E1; lia|].
           reflexivity.
      * assert (tally stream status (l ++ [(SockStream, s)]) (n0 + 0)) as H2.
        { apply tally_app; [exact Hn0|]. apply ta_miss; [intros [_ H]; apply E, lower_word; assumption|constructor]. }
        rewrite (tally_fun _ _ _ _ _ Hn H2), Z.add_0_r, <- IH.
        assert (Hne : prefix ++ B ".status." ++ map to_lower s <> prefix ++ B ".status." ++ status).
        { intros H. apply app_inv_head, app_inv_head in H. exact (E H). }
        destruct (m !! (prefix ++ B ".status." ++ map to_lower s)); apply lookup_insert_ne, Hne.
    + assert (tally stream status (l ++ [(SockOther, s)]) (n0 + 0)) as H2.
      { apply tally_app; [exact Hn0|]. apply ta_miss; [intros [H _]; discriminate|constructor]. }
      rewrite (tally_fun _ _ _ _ _ Hn H2), Z.add_0_r. exact IH.
Qed.
Theorem net_stats_keys conns prefix k v : get_net_stats conns prefix !! k = Some v ->
  exists l status, conns = Some l /\ k = prefix ++ B ".status." ++ status /\ no_capital status.
Proof.
  destruct conns as [l|]; cbn; [|rewrite lookup_empty; discriminate].
  intros H. exists l. assert (exists status, k = prefix ++ B ".status." ++ status /\ no_capital status) as (st & H1 & H2); [|eauto].
  revert H. assert (Hgen : forall m, (forall k v, m !! k = Some v -> exists status, k = prefix ++ B ".status." ++ status /\ no_capital status) ->
    forall k v, fold_left (net_stats_step prefix) l m !! k = Some v -> exists status, k = prefix ++ B ".status." ++ status /\ no_capital status).
  { clear. induction l as [|[t s] l IH]; intros m Hm k v; [apply Hm|]. cbn [fold_left]. apply IH. clear k v.
    intros k v. unfold net_stats_step. cbn [fst snd]. destruct t; [|apply Hm].
    set (key := prefix ++ B ".status." ++ map to_lower s).
    assert (Hi : forall x, <[key:=x]> m !! k = Some v -> exists status, k = prefix ++ B ".status." ++ status /\ no_capital status).
    { intros x. destruct (decide (key = k)) as [<-|Hk].
      - intros _. exists (map to_lower s). split; [reflexivity|apply lowered_no_capital].
      - rewrite lookup_insert_ne by exact Hk. apply Hm. }
    destruct (m !! key); apply Hi. }
  apply Hgen. intros k' v'. rewrite lookup_empty. discriminate.
Qed.

(** ** CPU times *)
Lemma nth_error_at {A} (l : list A) i : nth_error l i = l !! i.
Proof. revert i. induction l as [|x l IH]; intros [|i]; try reflexivity. apply IH. Qed.
Lemma digits_val_zeros n d : digits_val (repeat "0"%char n ++ d) = digits_val d.
Proof.
  rewrite digits_val_app. induction n as [|n IH].
  - change (digits_val (repeat "0"%char 0)) with 0. lia.
  - change (repeat "0"%char (S n)) with ("0"%char :: repeat "0"%char n).
    assert (E : digits_val ("0"%char :: repeat "0"%char n) = digits_val (repeat "0"%char n)).
    { unfold digits_val. cbn [fold_left]. reflexivity. }
    rewrite E. exact IH.
Qed.
Lemma pad3_inj i j : pad3 i = pad3 j -> i = j.
Proof.
  intros H. assert (digits_val (pad3 i) = digits_val (pad3 j)) as E by congruence.
  unfold pad3 in E. cbv zeta in E. rewrite !digits_val_zeros in E.
  rewrite (proj2 (proj2 (show_N_ok (N.of_nat i)))), (proj2 (proj2 (show_N_ok (N.of_nat j)))) in E. lia.
Qed.
Lemma pad3_no_dot i : ~ In "."%char (pad3 i).
Proof.
  unfold pad3. cbv zeta. intros H. apply in_app_or in H as [H|H].
  - apply repeat_spec in H. discriminate.
  - exact (digits_no_dot _ _ H).
Qed.
Lemma dotted_inj a b x y : ~ In "."%char a -> ~ In "."%char b -> a ++ B "." ++ x = b ++ B "." ++ y -> a = b /\ x = y.
Proof.
  intros Ha Hb E. assert (E' : split1 "." (a ++ "."%char :: x) = split1 "." (b ++ "."%char :: y)) by (f_equal; exact E).
  rewrite !split1_app in E' by assumption. inversion E'; auto.
Qed.
Section sys.
Context {V : Type}.
(** each CPU's entry is found under its own number *)
Definition cpu_key (prefix : str) (i : nat) (mode : str) : str := prefix ++ B ".cpu." ++ pad3 i ++ B "." ++ mode.
Lemma cpu_key_inj prefix i j a b : cpu_key prefix i a = cpu_key prefix j b -> i = j /\ a = b.
Proof.
  unfold cpu_key. intros H. apply app_inv_head, app_inv_head in H.
  apply dotted_inj in H as [H1 H2]; [|apply pad3_no_dot|apply pad3_no_dot]. apply pad3_inj in H1. auto.
Qed.
Lemma percpu_fold prefix (cpus : list (list (str * V))) : forall m idx,
  fold_left (fun '(m, idx) times =>
         (fold_left (fun m '(mode, t) => <[prefix ++ B ".cpu." ++ pad3 idx ++ B "." ++ mode := t]> m) times m, S idx))
       cpus (m, idx) =
  (add_all (concat (imap (fun i times => map (fun '(mode, t) => (cpu_key prefix (idx + i) mode, t)) times) cpus)) m, (idx + length cpus)%nat).
Proof.
  induction cpus as [|times cpus IH]; intros m idx; cbn [fold_left imap concat length].
  - rewrite Nat.add_0_r. reflexivity.
  - rewrite IH, add_all_app. f_equal; [|lia]. f_equal.
    + f_equal. apply imap_ext. intros i x _. unfold compose. replace (S idx + i)%nat with (idx + S i)%nat by lia. reflexivity.
    + rewrite Nat.add_0_r. unfold add_all. clear. revert m. induction times as [|[mode t] times IH]; intros m; [reflexivity|]. cbn. apply IH.
Qed.
Theorem one_cpu prefix (times : list (str * V)) : NoDup (map fst times) ->
  forall k v, system_stats_one prefix times !! k = Some v <-> exists mode, In (mode, v) times /\ k = prefix ++ B ".cpu." ++ mode.
Proof.
  intros Hnd k v. unfold system_stats_one.
  enough (H : forall m : gmap str V, fold_left (fun m '(mode, t) => <[prefix ++ B ".cpu." ++ mode := t]> m) times m !! k = Some v <->
    (exists mode, In (mode, v) times /\ k = prefix ++ B ".cpu." ++ mode) \/
    (m !! k = Some v /\ forall mode, In mode (map fst times) -> k <> prefix ++ B ".cpu." ++ mode)).
  { rewrite H, lookup_empty. split; [intros [?|[? _]]; [assumption|discriminate]|auto]. }
  induction times as [|[mode t] times IH]; intros m; cbn [fold_left map fst] in *.
  - split; [intros H; right; split; [exact H|intros ? []]|intros [(? & [] & _)|[H _]]; exact H].
  - apply NoDup_cons in Hnd as [Hn Hnd]. rewrite elem_of_list_In in Hn. rewrite (IH Hnd). split.
    + intros [(a & Ha & ->)|[Hm Hk]]; [left; exists a; split; [right; exact Ha|reflexivity]|].
      apply lookup_insert_Some in Hm as [[<- <-]|[Hne Hm]]; [left; exists mode; split; [left; reflexivity|reflexivity]|].
      right. split; [exact Hm|]. intros a [<-|Ha]; [congruence|auto].
    + intros [(a & [E|Ha] & ->)|[Hm Hk]].
      * injection E as -> ->. right. split; [apply lookup_insert|]. intros b Hb E. apply app_inv_head, app_inv_head in E. congruence.
      * left. eauto.
      * right. split; [rewrite lookup_insert_ne; [exact Hm|]|]; [intros E; apply (Hk mode); [left; reflexivity|auto]|].
        intros a Ha. apply Hk. right. exact Ha.
Qed.
Theorem percpu prefix (cpus : list (list (str * V))) :
  (forall times, In times cpus -> NoDup (map fst times)) ->
  forall k v, system_stats_percpu prefix cpus !! k = Some v <->
    exists i times mode, nth_error cpus i = Some times /\ In (mode, v) times /\
      k = prefix ++ B ".cpu." ++ pad3 i ++ B "." ++ mode.
Proof.
  intros Hnd k v. unfold system_stats_percpu. rewrite percpu_fold. cbn [fst Nat.add].
  rewrite (add_all_dict _ k v).
  assert (Hin : forall k v, In (k, v) (concat (imap (fun i times => map (fun '(mode, t) => (cpu_key prefix i mode, t)) times) cpus)) <->
     exists i times mode, nth_error cpus i = Some times /\ In (mode, v) times /\ k = cpu_key prefix i mode).
  { clear. intros k v. rewrite in_concat. split.
    - intros (l & Hl & Hin). apply elem_of_list_In, elem_of_lookup_imap in Hl as (i & times & -> & Hi).
      apply in_map_iff in Hin as ([mode t] & E & Hin). inversion E; subst. exists i, times, mode.
      split; [rewrite nth_error_at; exact Hi|]. auto.
    - intros (i & times & mode & Hi & Hin & ->). eexists. split.
      + apply elem_of_list_In, elem_of_lookup_imap. exists i, times. split; [reflexivity|]. rewrite <- nth_error_at. exact Hi.
      + apply (in_map (fun '(mode, t) => (cpu_key prefix i mode, t)) _ _ Hin). }
  assert (Huniq : forall k v v', In (k, v) (concat (imap (fun i times => map (fun '(mode, t) => (cpu_key prefix i mode, t)) times) cpus)) ->
     In (k, v') (concat (imap (fun i times => map (fun '(mode, t) => (cpu_key prefix i mode, t)) times) cpus)) -> v = v').
  { intros k0 v0 v1 H0 H1. apply Hin in H0 as (i & ti & a & Hi & Ha & E). apply Hin in H1 as (j & tj & b & Hj & Hb & E').
    rewrite E in E'. apply cpu_key_inj in E' as [-> ->]. rewrite Hi in Hj. inversion Hj; subst.
    assert (Hn : NoDup (map fst tj)) by (apply Hnd; eapply nth_error_In; exact Hi).
    clear -Ha Hb Hn. induction tj as [|[m t] tj IH]; [destruct Ha|]. cbn in Hn. apply NoDup_cons in Hn as [H1 H2].
    assert (Hf : forall x, In (m, x) tj -> False).
    { intros x Hx. apply H1. apply elem_of_list_In. apply (in_map fst _ _ Hx). }
    destruct Ha as [Ea|Ha]; destruct Hb as [Eb|Hb].
    - congruence.
    - inversion Ea; subst. exfalso. exact (Hf _ Hb).
    - inversion Eb; subst. exfalso. exact (Hf _ Ha).
    - apply IH; assumption. }
  split.
  - intros (a & b & E & _). apply Hin. rewrite E. apply in_or_app. right. left. reflexivity.
  - intros H. assert (H' := proj2 (Hin k v) H). clear H.
    revert H' Huniq. generalize (concat (imap (fun i times => map (fun '(mode, t) => (cpu_key prefix i mode, t)) times) cpus)).
    clear. induction l as [|[k0 v0] l IH] using rev_ind; intros H Hu; [destruct H|].
    destruct (decide (k0 = k)) as [->|Hk].
    + assert (v0 = v) as -> by (eapply Hu; [apply in_or_app; right; left; reflexivity|exact H]).
      exists l, []. split; [reflexivity|]. intros v' [].
    + apply in_app_or in H as [H|[H|[]]]; [|inversion H; congruence].
      destruct IH as (a & b & -> & Hb); [exact H|intros k1 v1 v2 H1 H2; eapply Hu; apply in_or_app; left; eassumption|].
      exists a, (b ++ [(k0, v0)]). rewrite <- app_assoc. split; [reflexivity|].
      intros v' H'. apply in_app_or in H' as [H'|[H'|[]]]; [exact (Hb v' H')|]. inversion H'; congruence.
Qed.
End sys.
