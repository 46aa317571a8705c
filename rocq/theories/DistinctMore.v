(** Consequences for the distinct counter: instances with transitive [<=], and
    the reporter. *)
From Verif Require Import Base Num NumFacts Env Stats Glob Metrics TimerFacts XQFacts OrderFacts DistinctFacts.
From Coq Require Import QArith Qcanon.
Open Scope Z_scope.
Notation length := List.length.

Section gen.
Context `{NN : Num} {NL : NumLe NN}.
Notation num := (@Num.num NN).

Lemma estimate_monotone (E : env) nh nb w (h1 h2 : list (num * str)) s1 s2 : (0 < nh)%nat -> (0 < nb)%nat ->
  let d0 := fst (distinct_new E nh nb w) in
  nleb n0 s1 = true -> nleb n0 s2 = true -> in_order h1 -> in_order h2 ->
  (forall item, in_window s1 h1 item -> in_window s2 h2 item) ->
  exists c1 c2, distinct_count (adds h1 d0) s1 = Ok c1 /\ distinct_count (adds h2 d0) s2 = Ok c2 /\ (1 <= c1 <= c2)%Z.
Proof. exact (count_mono nleb_trans le_zero E nh nb w h1 h2 s1 s2). Qed.
Lemma estimate_of_set (E : env) nh nb w (h1 h2 : list (num * str)) s1 s2 : (0 < nh)%nat -> (0 < nb)%nat ->
  let d0 := fst (distinct_new E nh nb w) in
  nleb n0 s1 = true -> nleb n0 s2 = true -> in_order h1 -> in_order h2 ->
  (forall item, in_window s1 h1 item <-> in_window s2 h2 item) ->
  distinct_count (adds h1 d0) s1 = distinct_count (adds h2 d0) s2.
Proof. exact (count_set nleb_trans le_zero E nh nb w h1 h2 s1 s2). Qed.
Lemma estimate_empty (E : env) nh nb w (h : list (num * str)) s : (0 < nh)%nat -> (0 < nb)%nat ->
  let d0 := fst (distinct_new E nh nb w) in
  nleb n0 s = true -> in_order h -> (forall item, ~ in_window s h item) ->
  distinct_count (adds h d0) s = Ok 1%Z.
Proof. exact (count_empty nleb_trans le_zero E nh nb w h s). Qed.
Lemma estimate_at_least_one (E : env) nh nb w (h : list (num * str)) s : (0 < nh)%nat ->
  exists c, distinct_count (adds h (fst (distinct_new E nh nb w))) s = Ok c /\ 1 <= c.
Proof.
  clear NL. intros Hnh. pose proof (new_wf E nh nb w) as (W1 & _). unfold distinct_count.
  destruct (adds_hashes h (fst (distinct_new E nh nb w))) as [-> _].
  destruct (ds_hashes (fst (distinct_new E nh nb w))) eqn:E0; [cbn in W1; lia|].
  eexists. split; [reflexivity|]. apply estimate_pos; [|lia].
  unfold distinct_total. induction (ds_buckets _) as [|row rows IH]; cbn [fold_right]; [lia|].
  assert (0 <= least0 s row). { clear. induction row as [|b row IH]; cbn [least0]; [lia|]. destruct (nleb b s); lia. }
  lia.
Qed.

(** ** the reporter *)
(** processing items, the k-th at the world [fst] of the k-th pair *)
Definition mark_all (E : env) (marks : list (world * str)) (d : dmetric) : dmetric :=
  fold_left (fun d m => fst (fst (dmetric_process E d [snd m; B "pd"] (fst m)))) marks d.
Definition times (E : env) (marks : list (world * str)) : list (num * str) :=
  map (fun m => (e_clock E (w_clk (fst m)), snd m)) marks.
Lemma mark_all_adds E marks d : mark_all E marks d = DMetric (dm_name d) (dm_prefix d) (adds (times E marks) (dm_counter d)).
Proof.
  clear NL. revert d. induction marks as [|[w item] marks IH]; intros d; [destruct d; reflexivity|].
  unfold mark_all in *. cbn [fold_left fst snd]. rewrite IH. reflexivity.
Qed.
End gen.

Lemma xleb_fin a b : xleb (Fin a) (Fin b) = true <-> (a <= b)%Qc.
Proof.
  unfold xleb, xltb, xeqb. rewrite orb_true_iff, Qc_ltb_lt, Qc_eqb_eq. split.
  - intros [H|H]; [apply Qclt_le_weak; exact H|subst; apply Qcle_refl].
  - intros H. destruct (Qcle_lt_or_eq _ _ H); auto.
Qed.

Section xq.
Context (sq : Qc -> Qc) (E : env (NN := XQ sq)).

(** the four windows of a report: count_1min <= count_1hour <= count_1day <= count *)
Lemma reporter_windows name prefix w0 marks w ts q : Forall (fun m => exists q', e_clock E (w_clk (fst m)) = Fin q') marks ->
  in_order (NN := XQ sq) (times E marks) ->
  e_clock E (w_clk w) = Fin q -> (QcZ 86400 <= q)%Qc ->
  exists c1 c2 c3 c4, 
    fst (dmetric_flush E (mark_all E marks (fst (dmetric_new E name prefix w0))) ts w) =
      Ok [DP (dotted prefix ++ name ++ B ".count") (VI c4) ts; DP (dotted prefix ++ name ++ B ".count_1day") (VI c3) ts;
          DP (dotted prefix ++ name ++ B ".count_1hour") (VI c2) ts; DP (dotted prefix ++ name ++ B ".count_1min") (VI c1) ts] /\
    1 <= c1 <= c2 /\ c2 <= c3 <= c4.
Proof.
  intros Hfin Hord Hq Hday. rewrite mark_all_adds. unfold dmetric_flush, now. rewrite Hq.
  unfold dmetric_new. pose proof (estimate_monotone (NN := XQ sq) E 32 32 w0) as Hmono.
  destruct (distinct_new E 32 32 w0) as [d w'] eqn:Ed. cbn [fst snd dm_name dm_prefix dm_counter] in *.
  assert (H32 : (0 < 32)%nat) by (apply Nat.ltb_lt; reflexivity).
  assert (Hw : forall a b, (b <= a)%Qc -> (0 <= b)%Qc -> exists c1 c2,
     distinct_count (adds (times E marks) d) (Fin a) = Ok c1 /\ distinct_count (adds (times E marks) d) (Fin b) = Ok c2 /\ 1 <= c1 <= c2).
  { intros a b Hab Hb. clear Hday Hq. refine (Hmono (times E marks) (times E marks) (Fin a : @Num.num (XQ sq)) (Fin b : @Num.num (XQ sq)) H32 H32 _ _ Hord Hord _).
    - change (xleb (Fin (QcZ 0)) (Fin a) = true). apply xleb_fin. rewrite QcZ_0. exact (Qcle_trans _ _ _ Hb Hab).
    - change (xleb (Fin (QcZ 0)) (Fin b) = true). apply xleb_fin. rewrite QcZ_0. exact Hb.
    - intros item (t & Hin & Ht). exists t. split; [exact Hin|].
      apply not_true_is_false. intros Hle. change (xleb t (Fin b) = true) in Hle. change (xleb t (Fin a) = false) in Ht.
      rewrite (xleb_trans t (Fin b) (Fin a) Hle) in Ht; [discriminate|]. apply xleb_fin. exact Hab. }
  assert (Hsub : forall z, nsub (Num := XQ sq) (Fin q) (nofZ (Num := XQ sq) z) = Fin (q - QcZ z)%Qc) by reflexivity.
  rewrite !Hsub.
  change (@n0 (XQ sq)) with (Fin (QcZ 0)).
  assert (Z0 : (QcZ 60 <= QcZ 3600)%Qc) by (apply QcZ_le; lia). assert (Z1 : (QcZ 3600 <= QcZ 86400)%Qc) by (apply QcZ_le; lia).
  pose proof QcZ_0 as Hz.
  set (m := QcZ 60) in *. set (h := QcZ 3600) in *. set (dd := QcZ 86400) in *. clearbody m h dd.
  destruct (Hw (q - m)%Qc (q - h)%Qc) as (c1 & c2 & -> & E2 & H12); [qc_lra|qc_lra|].
  destruct (Hw (q - h)%Qc (q - dd)%Qc) as (c2' & c3 & E2' & E3 & H23); [qc_lra|qc_lra|].
  destruct (Hw (q - dd)%Qc (QcZ 0)) as (c3' & c4 & E3' & E4 & H34); [rewrite Hz; qc_lra|rewrite Hz; apply Qcle_refl|].
  rewrite E2 in E2' |- *. rewrite E3 in E3' |- *. rewrite E4. injection E2' as <-. injection E3' as <-.
  exists c1, c2, c3, c4. split; [reflexivity|]. lia.
Qed.
End xq.

