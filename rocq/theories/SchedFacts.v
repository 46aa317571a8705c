(** What holds in every interleaving of receiving and flushing. *)
From Verif Require Import Base StrFacts Num Env Stats Glob Metrics Gen GenFacts Processor
  LineSpec LineFacts FloatFacts ProcFacts ProcSpec ReceiveFacts ReceiveFacts2 ReceiveFacts3 PlugFacts
  Sched FlushInv FlushOk.

Section gen_run.
Context `{NN : Num} (E : env) (plugins : list factory).
Notation C := (mp_cls E plugins).
Context {A : Type} (op : A -> A -> A) (e0 : A).
Context (op_comm : forall a b, op a b = op b a)
        (op_assoc : forall a b c, op a (op b c) = op (op a b) c)
        (op_e0 : forall a, op e0 a = a).
Context (pc : gmap str num -> A) (val : dp -> A) (inc : str -> A).
Context (Hval : forall x v ts, val (DP (B "stats." ++ x) v ts) = e0)
        (Hvald : forall x v ts, val (DP (B "statsd." ++ x) v ts) = e0)
        (Hcount : forall (m : gmap str num) k n ts, m !! k = Some n ->
           pc m = op (pc (<[k := n0]> m)) (val (DP (count_prefix ++ k) (VF n) ts)))
        (Hinc : forall m s, pc (p_counter (receive E plugins m s)) = op (pc (p_counter s)) (inc m)).
Notation pot := (fun s : mst => pc (p_counter s)).
Notation ok := (okG op e0 Inv Qname pot val).
Notation owd := (owed op e0 val).
Notation tot := (total op e0 val).

Definition sumA {X} (f : X -> A) (l : list X) : A := fold_right (fun x a => op (f x) a) e0 l.
Lemma sumA_app {X} (f : X -> A) l k : sumA f (l ++ k) = op (sumA f l) (sumA f k).
Proof using op_assoc op_e0.
  induction l as [|x l IH]; cbn; [rewrite op_e0; reflexivity|].
  change (op (f x) (sumA f (l ++ k)) = op (op (f x) (sumA f l)) (sumA f k)). rewrite IH. apply op_assoc.
Qed.
Lemma sumA_delete {X} (f : X -> A) l i x : l !! i = Some x -> sumA f l = op (f x) (sumA f (delete i l)).
Proof using op_comm op_assoc.
  revert i. induction l as [|y l IH]; intros [|i] H; cbn in H; try discriminate.
  - injection H as ->. reflexivity.
  - cbn. change (op (f y) (sumA f l) = op (f x) (op (f y) (sumA f (delete i l)))).
    rewrite (IH i H). rewrite !op_assoc. rewrite (op_comm (f y)). reflexivity.
Qed.
Lemma sumA_insert {X} (f : X -> A) l i x y : l !! i = Some x ->
  op (f x) (sumA f (<[i := y]> l)) = op (f y) (sumA f l).
Proof using op_comm op_assoc.
  intros H. assert (Hy : <[i := y]> l !! i = Some y).
  { apply list_lookup_insert. eapply lookup_lt_Some. exact H. }
  rewrite (sumA_delete f _ i y Hy), (sumA_delete f l i x H).
  assert (Hd : delete i (<[i := y]> l) = delete i l).
  { clear. revert i. induction l as [|z l IH]; intros [|i]; cbn; auto. f_equal. apply IH. }
  rewrite Hd, !op_assoc. rewrite (op_comm (f x)). reflexivity.
Qed.

(** everything accounted for *)
Definition balance (y : sys) : A :=
  op (pot (y_st y)) (op (sumA owd (y_live y)) (op (sumA owd (y_gone y)) (tot (y_out y)))).
Definition sys_ok (y : sys) : Prop :=
  Inv (y_st y) /\ Forall ok (y_live y) /\ Forall Qname (y_out y).

(** a step of a flush moves the balance about, without changing it *)
Lemma sys_quiet_ok y e : sane e -> (forall m, e <> Recv m) -> sys_ok y -> sys_ok (sys_step E plugins y e) /\
  balance (sys_step E plugins y e) = op (balance y) e0.
Proof using op_comm op_assoc op_e0 Hval Hvald Hcount.
  assert (op_e0r : forall a, op a e0 = a) by (intros; rewrite op_comm; apply op_e0).
  intros Hs Hr (Hi & Hl & Ho). destruct e as [m|i p|i|i]; cbn [sys_step].
  - destruct (Hr m eq_refl).
  - cbn [sane] in Hs.
    destruct (flush_good E plugins op e0 op_comm op_assoc op_e0 pc val Hval Hvald Hcount i p Hs) as [G1 G2].
    split.
    + split; [exact Hi|split; [|exact Ho]]. cbn [y_live]. apply Forall_app. split; [exact Hl|].
      constructor; [exact G1|constructor].
    + unfold balance. cbn [y_st y_live y_gone y_out]. rewrite sumA_app. cbn [sumA fold_right].
      rewrite G2, !op_e0r. reflexivity.
  - destruct (y_live y !! i) as [g|] eqn:Hg; [|split; [split; auto|rewrite op_e0r; reflexivity]].
    assert (Hok : ok g) by (rewrite Forall_lookup in Hl; eapply Hl; exact Hg).
    destruct (gnext g (y_st y)) as [s' o] eqn:Hn.
    destruct (gnext_ok op e0 op_comm op_assoc op_e0 Inv Qname pot val g (y_st y) s' o Hi Hok Hn) as (H1 & H2 & H3).
    destruct o as [d g'| |x]; cbn [out_owed out_ok] in *.
    + destruct H3 as [H3 H4]. split.
      * split; [exact H1|]. split; cbn [y_live y_out].
        -- apply Forall_insert; auto.
        -- apply Forall_app. split; [auto|]. constructor; auto.
      * unfold balance. cbn [y_st y_live y_gone y_out]. rewrite op_e0r.
        assert (Ht : tot (y_out y ++ [d]) = op (tot (y_out y)) (val d)).
        { pose proof (sumA_app val (y_out y) [d]) as Hx. unfold sumA in Hx. unfold total. rewrite Hx.
          cbn [fold_right]. rewrite op_e0r. reflexivity. }
        rewrite Ht. rewrite (sumA_delete owd (y_live y) i g Hg).
        assert (Hy : <[i := g']> (y_live y) !! i = Some g').
        { apply list_lookup_insert. eapply lookup_lt_Some. exact Hg. }
        rewrite (sumA_delete owd _ i g' Hy).
        assert (Hd : delete i (<[i := g']> (y_live y)) = delete i (y_live y)).
        { generalize (y_live y). clear. intros l. revert i. induction l as [|z l IH]; intros [|i]; cbn; auto. f_equal. apply IH. }
        rewrite Hd. rewrite !op_assoc. rewrite H2. rewrite !op_assoc.
        rewrite (op_comm _ (val d)). rewrite !op_assoc. f_equal. f_equal. f_equal. f_equal. apply op_comm.
    + split.
      * split; [exact H1|]. split; [|exact Ho]. cbn [y_live]. apply Forall_delete. exact Hl.
      * unfold balance. cbn [y_st y_live y_gone y_out]. rewrite op_e0r.
        rewrite (sumA_delete owd (y_live y) i g Hg). rewrite !op_assoc. rewrite H2, op_e0r. reflexivity.
    + split.
      * split; [exact H1|]. split; [|exact Ho]. cbn [y_live]. apply Forall_delete. exact Hl.
      * unfold balance. cbn [y_st y_live y_gone y_out]. rewrite op_e0r.
        rewrite (sumA_delete owd (y_live y) i g Hg). rewrite !op_assoc. rewrite H2, op_e0r. reflexivity.
  - destruct (y_live y !! i) as [g|] eqn:Hg; [|split; [split; auto|rewrite op_e0r; reflexivity]].
    split.
    + split; [exact Hi|]. split; [|exact Ho]. cbn [y_live]. apply Forall_delete. exact Hl.
    + unfold balance. cbn [y_st y_live y_gone y_out]. rewrite op_e0r. rewrite sumA_app.
      cbn [sumA fold_right]. rewrite op_e0r. rewrite (sumA_delete owd (y_live y) i g Hg).
      rewrite !op_assoc. f_equal. rewrite <- !op_assoc. f_equal. rewrite (op_comm (owd g)). rewrite !op_assoc. reflexivity.
Qed.

Lemma sys_quiet_takes y e : sane e -> (forall m, e <> Recv m) -> sys_ok y ->
  exists z, pot (y_st y) = op (pot (y_st (sys_step E plugins y e))) z.
Proof using op_comm op_assoc op_e0.
  assert (op_e0r : forall a, op a e0 = a) by (intros; rewrite op_comm; apply op_e0).
  intros Hs Hr (Hi & Hl & Ho).
  assert (Hsame : exists z, pot (y_st y) = op (pot (y_st y)) z) by (exists e0; rewrite op_e0r; reflexivity).
  destruct e as [m|i p|i|i]; cbn [sys_step]; [destruct (Hr m eq_refl)|exact Hsame| |].
  - destruct (y_live y !! i) as [g|] eqn:Hg; [|exact Hsame].
    assert (Hok : ok g) by (rewrite Forall_lookup in Hl; eapply Hl; exact Hg).
    destruct (gnext g (y_st y)) as [s' o] eqn:Hn.
    pose proof (gnext_takes op e0 op_comm op_assoc op_e0 Inv Qname pot val g (y_st y) s' o Hi Hok Hn) as H.
    destruct o; exact H.
  - destruct (y_live y !! i); exact Hsame.
Qed.

Lemma sys_step_ok y e : sane e -> sys_ok y -> sys_ok (sys_step E plugins y e) /\
  balance (sys_step E plugins y e) = op (balance y) (match e with Recv m => inc m | _ => e0 end).
Proof using op_comm op_assoc op_e0 Hval Hvald Hcount Hinc.
  intros Hs Hy. destruct e as [m|i p|i|i]; [|apply sys_quiet_ok; [exact Hs|discriminate|exact Hy]..].
  destruct Hy as (Hi & Hl & Ho). cbn [sys_step].
  split; [split; [apply inv_receive; exact Hi|split; assumption]|].
  unfold balance. cbn [y_st y_live y_gone y_out]. rewrite Hinc.
  rewrite <- !op_assoc. f_equal. rewrite (op_comm (inc m)), <- !op_assoc. reflexivity.
Qed.

Lemma sys_run_ok es : forall y, Forall sane es -> sys_ok y -> sys_ok (sys_run E plugins es y) /\
  balance (sys_run E plugins es y) = op (balance y) (sumA inc (lines es)).
Proof using op_comm op_assoc op_e0 Hval Hvald Hcount Hinc.
  assert (op_e0r : forall a, op a e0 = a) by (intros; rewrite op_comm; apply op_e0).
  induction es as [|e es IH]; intros y Hs Hy; cbn [sys_run fold_left].
  - split; [exact Hy|]. cbn. rewrite op_e0r. reflexivity.
  - inversion Hs as [|? ? Hs1 Hs2]; subst. destruct (sys_step_ok y e Hs1 Hy) as [H1 H2].
    destruct (IH (sys_step E plugins y e) Hs2 H1) as [H3 H4].
    split; [exact H3|]. unfold sys_run in H4. rewrite H4, H2. unfold lines. cbn [flat_map].
    rewrite sumA_app. destruct e; cbn [sumA fold_right]; rewrite ?op_e0r, ?op_e0; try reflexivity; rewrite <- ?op_assoc; reflexivity.
Qed.
End gen_run.

(** ** Names (C23), for every arithmetic *)
Section names.
Context `{NN : Num} (E : env) (plugins : list factory).
Lemma names_ok es : Forall sane es ->
  Inv (y_st (sys_run E plugins es sys_init)) /\ Forall Qname (y_out (sys_run E plugins es sys_init)).
Proof.
  intros Hs.
  destruct (sys_run_ok E plugins (fun _ _ : unit => tt) tt (fun _ _ => eq_refl) (fun _ _ _ => eq_refl)
    (fun a => match a with tt => eq_refl end) (fun _ => tt) (fun _ => tt) (fun _ => tt)
    (fun _ _ _ => eq_refl) (fun _ _ _ => eq_refl) (fun _ _ _ _ _ => eq_refl) (fun _ _ => eq_refl)
    es sys_init Hs) as [(H1 & _ & H2) _].
  - split; [apply inv_init|split; constructor].
  - auto.
Qed.
End names.

(** ** Conservation (C12) *)
Section conserve.
Context `{NN : Num} {NL : NumLaw NN} {NX : NumExact NN} (E : env) (plugins : list factory) (key : str).

Definition as_num (v : pval) : num := match v with VI z => nofZ z | VF x => x end.
(** the part of a list of datapoints sent under stats_counts.KEY *)
Definition count_of (d : dp) : num :=
  if str_eqb (dp_name d) (B "stats_counts." ++ key) then as_num (dp_value d) else n0.
Definition counts_in (l : list dp) : num := nsum (map count_of l).

Definition inc_of (m : str) : num :=
  match counter_view m key with
  | Some (v, o) => match rate_of o with
                   | Ok r => if neqb r n0 then n0 else nmul v (ndiv n1 r)
                   | Exn _ => n0
                   end
  | None => n0
  end.
Lemma inc_of_iff m a : counter_amount key m a -> inc_of m = a.
Proof.
  intros (v & r & H & ->). apply counter_view_sample in H. destruct H as (o & H1 & H2 & H3).
  unfold inc_of. rewrite H1, H2. destruct o; [rewrite H3 by discriminate; reflexivity|].
  cbn in H2. injection H2 as <-. rewrite one_not_zero. reflexivity.
Qed.
Lemma inc_of_none m : (forall a, ~ counter_amount key m a) -> inc_of m = n0.
Proof.
  intros H. unfold inc_of. destruct (counter_view m key) as [[v o]|] eqn:Ev; [|reflexivity].
  destruct (rate_of o) as [r|] eqn:Er; [|reflexivity]. destruct (neqb r n0) eqn:Ez; [reflexivity|].
  exfalso. apply (H (nmul v (ndiv n1 r))). exists v, r. split; [|reflexivity].
  apply counter_view_sample. exists o. auto.
Qed.
Lemma inc_sum ms l : picks (contribution key) ms l -> sumA nadd n0 inc_of ms = nsum l.
Proof using NL NX.
  induction 1 as [|m a ms l Ha _ IH|m ms l Hn _ IH].
  - reflexivity.
  - cbn [sumA fold_right]. change (fold_right _ n0 ms) with (sumA nadd n0 inc_of ms).
    rewrite IH, nsum_cons. f_equal. apply inc_of_iff, contribution_amount. exact Ha.
  - cbn [sumA fold_right]. change (fold_right _ n0 ms) with (sumA nadd n0 inc_of ms).
    rewrite IH, inc_of_none, nadd_0_l; [reflexivity|].
    intros a Ha. apply (Hn a). apply contribution_amount. exact Ha.
Qed.
Lemma contributions_exist ms : exists l, picks (contribution key) ms l.
Proof using NL NX E plugins.
  destruct (counter_exact E plugins ms mp_init key) as (l & Hl & _). eauto.
Qed.

Definition pot_of (m : gmap str num) : num := default n0 (m !! key).
Lemma pot_receive m (s : mst) :
  pot_of (p_counter (receive E plugins m s)) = nadd (pot_of (p_counter s)) (inc_of m).
Proof using NL NX.
  unfold pot_of. destruct (counter_one E plugins m key s) as [(a & Ha & H)|[(_ & Ha & H)|(_ & Ha & H)]]; rewrite H.
  - cbn. rewrite (inc_of_iff m a Ha). reflexivity.
  - rewrite (inc_of_none m Ha), nadd_0_r. reflexivity.
  - rewrite (inc_of_none m Ha), nadd_0_r. reflexivity.
Qed.

Lemma count_stats x v ts : count_of (DP (B "stats." ++ x) v ts) = n0.
Proof. unfold count_of. cbn [dp_name]. destruct (str_eqb _ _) eqn:Eq; [|reflexivity]. apply str_eqb_eq in Eq. discriminate. Qed.
Lemma count_statsd x v ts : count_of (DP (B "statsd." ++ x) v ts) = n0.
Proof. unfold count_of. cbn [dp_name]. destruct (str_eqb _ _) eqn:Eq; [|reflexivity]. apply str_eqb_eq in Eq. discriminate. Qed.
Lemma pot_zero (m : gmap str num) k n ts : m !! k = Some n ->
  pot_of m = nadd (pot_of (<[k := n0]> m)) (count_of (DP (count_prefix ++ k) (VF n) ts)).
Proof using NX.
  intros H. unfold pot_of, count_of. cbn [dp_name dp_value as_num].
  destruct (decide (k = key)) as [->|Hne].
  - rewrite lookup_insert, H. cbn. change count_prefix with (B "stats_counts.").
    rewrite str_eqb_refl. rewrite nadd_0_l. reflexivity.
  - rewrite lookup_insert_ne by auto. destruct (str_eqb _ _) eqn:Eq.
    + apply str_eqb_eq in Eq. apply app_inv_head in Eq. contradiction.
    + rewrite nadd_0_r. reflexivity.
Qed.

Lemma total_counts l : total nadd n0 count_of l = counts_in l.
Proof using NX.
  unfold counts_in. induction l as [|d l IH]; [reflexivity|].
  cbn [total fold_right map]. change (fold_right _ n0 l) with (total nadd n0 count_of l).
  rewrite IH, nsum_cons. reflexivity.
Qed.
Lemma owed_counts g : owed nadd n0 count_of g = counts_in (pending g).
Proof using NX.
  induction g as [|e|f IH|ms k IH] using gen_ind'; try reflexivity.
  cbn [owed pending]. unfold counts_in in *. rewrite map_app, nsum_app. rewrite <- IH. f_equal. apply total_counts.
Qed.
Lemma sum_owed gs : sumA nadd n0 (owed nadd n0 count_of) gs = counts_in (flat_map pending gs).
Proof using NX.
  induction gs as [|g gs IH]; [reflexivity|].
  cbn [sumA fold_right flat_map]. change (fold_right _ n0 gs) with (sumA nadd n0 (owed nadd n0 count_of) gs).
  rewrite IH. unfold counts_in. rewrite map_app, nsum_app. f_equal. apply owed_counts.
Qed.

Theorem conservation es : Forall sane es ->
  let y := sys_run E plugins es sys_init in
  exists accepted, picks (contribution key) (lines es) accepted /\
    nadd (counts_in (y_out y))
      (nadd (counts_in (flat_map pending (y_live y ++ y_gone y)))
            (default n0 (p_counter (y_st y) !! key)))
    = nsum accepted.
Proof using NL NX.
  intros Hs y. destruct (contributions_exist (lines es)) as (l & Hl). exists l. split; [exact Hl|].
  destruct (sys_run_ok E plugins nadd n0 nadd_comm nadd_assoc nadd_0_l pot_of count_of inc_of
    count_stats count_statsd pot_zero pot_receive es sys_init Hs) as [_ H].
  { split; [apply inv_init|split; constructor]. }
  fold y in H. unfold balance in H. rewrite !sum_owed, total_counts, (inc_sum _ _ Hl) in H.
  cbn [y_live y_gone y_out y_st sys_init] in H. unfold pot_of at 2 in H. cbn [mp_init empty_state p_counter] in H.
  rewrite lookup_empty in H. cbn [default from_option sumA fold_right total] in H.
  change (counts_in (flat_map pending [])) with n0 in H. change (counts_in []) with n0 in H.
  rewrite !nadd_0_l in H. rewrite <- H. clear H. unfold pot_of.
  rewrite flat_map_app. unfold counts_in. rewrite map_app, nsum_app.
  set (a := nsum (map count_of (y_out y))). set (b := nsum (map count_of (flat_map pending (y_live y)))).
  set (c := nsum (map count_of (flat_map pending (y_gone y)))). set (d := default n0 _).
  rewrite (nadd_comm a). rewrite (nadd_comm _ d). rewrite <- !nadd_assoc. f_equal.
Qed.
End conserve.
