(** One flush of the assembled daemon, from the moment the flush task begins it until all of
    it has been given to carbon. *)
From Verif Require Import Base StrFacts Num Env Stats Glob Metrics Gen GenFacts Processor
  LineSpec LineFacts FloatFacts ProcFacts ProcSpec ReceiveFacts ReceiveFacts2 ReceiveFacts3 PlugFacts
  Sched FlushInv FlushOk SchedFacts Client Router RouterSpec RouterFacts RouterProps
  Server ServerSpec FrameFacts ServerFacts Daemon DaemonFacts Own OwnSpec OwnFacts OwnFacts2 FlushSpec FlushSched FlushEnds.

(** ** What the theorems speak about *)
Section spec.
Context `{NN : Num}.
(** the datapoints of the [k]-th flush given to carbon, in order *)
Definition sent_by {S : Type} (k : nat) (d : @daemon NN S) : list dp :=
  map (fun c => snd (fst c)) (List.filter (fun c => Nat.eqb (fst (fst c)) k) (d_calls d)).
(** the first [n] of an unending sequence of events *)
Definition dfirsts (ev : nat -> devent) (n : nat) : list devent := map ev (seq 0 n).
End spec.
(** the [k]-th flush is resumed again and again for as long as it is unfinished *)
Definition stepped_again `{NN : Num} {T : Type} (G : engine) (inner : str -> str -> str -> list str -> M T unit) (fl : gen T) (rs : list (rule G))
  (cfg : mon) (max : nat) (closes : bool) (refuses : nat -> dp -> option exn) (d : @daemon NN T) (k : nat) (ev : nat -> devent) : Prop :=
  forall n, exists m, (n <= m)%nat /\
    forall j g, d_live (drun G inner fl rs cfg max closes refuses d (dfirsts ev m)) !! j = Some (k, g) -> ev m = DStep j.

(** ** Proofs *)
Lemma del_lookup {A} (l : list A) i j x : delete i l !! j = Some x -> l !! (if (j <? i)%nat then j else S j) = Some x.
Proof.
  destruct (j <? i)%nat eqn:Ej; [apply Nat.ltb_lt in Ej; rewrite lookup_delete_lt by lia|apply Nat.ltb_ge in Ej; rewrite lookup_delete_ge by lia]; auto.
Qed.
Lemma del_other {A} (l : list A) i j x : i <> j -> l !! j = Some x -> delete i l !! (if (i <? j)%nat then (j - 1)%nat else j) = Some x.
Proof.
  intros Hne H. destruct (i <? j)%nat eqn:Ej.
  - apply Nat.ltb_lt in Ej. rewrite lookup_delete_ge by lia. replace (S (j - 1)) with j by lia. exact H.
  - apply Nat.ltb_ge in Ej. rewrite lookup_delete_lt by lia. exact H.
Qed.

Section processor.
Context `{NN : Num} (E : env) (plugins : list factory) (G : engine).
Notation C := (mp_cls E plugins).
Context (interval percent : Z) (cfg : mon) (max : nat) (closes : bool) (refuses : nat -> dp -> option exn).
Context (config : str) (ls : list lspec) (rs : list (rule G)) (rws : list rule_text).
Context (Hb : build_rules G true config [] = (ls, Ok rs)) (Hr : rules_of config rws).
Notation inner := (process_message E C).
Notation fl := (flush E C interval percent).
Notation step := (dstep (S := mst) G inner fl rs cfg max closes refuses).
Notation run := (drun (S := mst) G inner fl rs cfg max closes refuses).
Notation simulates := (simulates E plugins G interval percent ls rws).
Notation follow := (follow E plugins).

(** what an event of the daemon is for its processor *)
Definition happens (d : @daemon NN mst) (e : devent) (new : list event) : Prop :=
  match e with
  | DStep i =>
      match d_live d !! i with
      | None => new = []
      | Some (k, g) =>
          match snd (gnext g (d_proc d)) with
          | Yielded v _ => new = match refuses (length (d_calls d)) v with None => [Resume i] | Some _ => [Resume i; Drop i] end
          | _ => new = [Resume i]
          end
      end
  | DFlush => new = [Start interval percent]
  | _ => exists ts, new = map Recv ts
  end.
Lemma sim_step_new d y tss es e : simulates d y tss es ->
  (forall m, In m (d_order (step d e)) -> exists ts, delivers G rws m ts) ->
  exists y' tts new, simulates (step d e) y' (tss ++ tts) (es ++ new) /\ happens d e new.
Proof using Hb Hr.
  intros Hs Hm. destruct e as [e|m| |i l|i].
  - assert (Hquiet : forall ks s', v_proc s' = v_proc (d_srv d) ->
      exists y' tts new, simulates (Dm ks s' (d_internal d) (d_order d) (d_live d) (d_gone d) (d_begun d) (d_calls d) (d_ended d)) y' (tss ++ tts) (es ++ new) /\
        happens d (DNet e) new).
    { intros ks s' Hp. exists y, [], []. rewrite !app_nil_r. split; [|exists []; reflexivity]. destruct Hs as [H1 H2 H3 H4 H5 H6 H7 H8 H9 H10].
      split; cbn; try assumption; [unfold d_proc in *; cbn; rewrite Hp; exact H1|rewrite Hp; exact H5]. }
    cbn [dstep] in *. destruct (sstep (r_process (S := mst) G inner rs) cfg max closes (d_conns d, d_srv d) e) as [ks s'] eqn:Es.
    destruct e as [a data|i data|i]; cbn [sstep] in Es.
    + injection Es as <- <-. rewrite app_nil_r. apply Hquiet. unfold received. destruct (str_eqb _ _); reflexivity.
    + rewrite app_nil_r. apply Hquiet. destruct (d_conns d !! i) as [k|]; [|injection Es as <- <-; reflexivity].
      unfold data_received in Es. destruct (k_open k); [|injection Es as <- <-; reflexivity].
      destruct (line_loop _ _ _ _ _ (d_srv d)) as [[s1 b] o] eqn:El. injection Es as _ <-. eapply loop_proc, El.
    + injection Es as <- <-. unfold run_call. destruct (v_pending (d_srv d) !! i) as [m|] eqn:Ep; [|rewrite app_nil_r; apply Hquiet; reflexivity].
      destruct (Hm m) as [ts Hd]; [cbn [d_order]; apply in_or_app; right; left; reflexivity|].
      destruct (r_process (S := mst) G inner rs m (v_proc (d_srv d))) as [p r] eqn:Ei.
      do 3 eexists. split; [|exists ts; reflexivity]. eapply (sim_line E plugins G interval percent config ls rs rws Hb Hr d y tss es m ts _ (d_srv d)); [exact Hs|exact Hd|reflexivity|]. cbn [v_proc]. rewrite Ei. reflexivity.
  - cbn [dstep] in *. destruct (r_process (S := mst) G inner rs m (v_proc (d_srv d))) as [p r] eqn:Ei.
    destruct (Hm m) as [ts Hd]; [cbn [d_order]; apply in_or_app; right; left; reflexivity|].
    do 3 eexists. split; [|exists ts; reflexivity]. eapply (sim_line E plugins G interval percent config ls rs rws Hb Hr d y tss es m ts _ (d_srv d)); [exact Hs|exact Hd|reflexivity|]. cbn [v_proc]. rewrite Ei. reflexivity.
  - exists (sys_step E plugins y (Start interval percent)), [], [Start interval percent]. rewrite app_nil_r. split; [|reflexivity].
    destruct Hs as [H1 H2 H3 H4 H5 H6 H7 H8 H9 H10].
    split; unfold d_proc in *; cbn [dstep d_srv d_live d_gone d_calls d_order sys_step y_st y_live y_gone y_out]; try assumption.
    + rewrite map_app, H2. reflexivity.
    + rewrite run_app, <- H6. reflexivity.
    + intros Hi. apply Forall_app. split; [apply H7, Hi|]. constructor; [exact Hi|constructor].
    + rewrite lines_app, H8. cbn. rewrite app_nil_r. reflexivity.
    + apply Forall_app. split; [exact H10|]. constructor; [split; reflexivity|constructor].
  - exists y, [], []. rewrite !app_nil_r. split; [|exists []; reflexivity]. destruct Hs as [H1 H2 H3 H4 H5 H6 H7 H8 H9 H10]. split; cbn; try assumption.
    rewrite insert_length. exact H5.
  - cbn [dstep happens]. destruct (d_live d !! i) as [[k g]|] eqn:El; [|exists y, [], []; rewrite !app_nil_r; split; [exact Hs|reflexivity]].
    destruct Hs as [H1 H2 H3 H4 H5 H6 H7 H8 H9 H10].
    assert (Hy : y_live y !! i = Some g) by (rewrite <- H2, list_lookup_fmap, El; reflexivity).
    assert (Hst : sys_step E plugins y (Resume i) = match gnext g (y_st y) with
          | (s', Yielded d g') => Sys s' (<[i := g']> (y_live y)) (y_gone y) (y_out y ++ [d]) (y_exn y)
          | (s', Finished) => Sys s' (delete i (y_live y)) (y_gone y) (y_out y) (y_exn y)
          | (s', Raised x) => Sys s' (delete i (y_live y)) (y_gone y) (y_out y) (y_exn y ++ [x])
          end) by (cbn [sys_step]; rewrite Hy; reflexivity).
    rewrite H1 in *. destruct (gnext g (y_st y)) as [p [v g'| |x]] eqn:Eg.
    + cbn [snd]. destruct (refuses (length (d_calls d)) v) as [x|].
      * exists (sys_run E plugins [Resume i; Drop i] y), [], [Resume i; Drop i]. rewrite app_nil_r. split; [|reflexivity].
        assert (Hrun : sys_run E plugins [Resume i; Drop i] y =
          Sys p (delete i (y_live y)) (y_gone y ++ [g']) (y_out y ++ [v]) (y_exn y)).
        { cbn [sys_run fold_left]. rewrite Hst. cbn [sys_step y_live y_st y_gone y_out y_exn].
          rewrite list_lookup_insert by (eapply lookup_lt_Some, Hy). f_equal.
          clear. generalize (y_live y). intros l. revert i. induction l as [|z l IH]; intros [|i]; cbn; auto. f_equal. apply IH. }
        split; unfold d_proc, d_set_proc in *; cbn [ d_srv d_live d_gone d_calls d_order v_proc r_proc r_links]; rewrite ?Hrun; cbn [y_st y_live y_gone y_out]; try assumption; try reflexivity.
        { rewrite <- H2. clear. generalize (d_live d). intros l. revert i. induction l as [|z l IH]; intros [|i]; cbn; auto. f_equal. apply IH. }
        { rewrite H3. reflexivity. }
        { rewrite map_app, H4. reflexivity. }
        { rewrite run_app, <- H6. symmetry. exact Hrun. }
        { intros Hi. apply Forall_app. split; [apply H7, Hi|]. repeat constructor. }
        { rewrite lines_app, H8. cbn. rewrite app_nil_r. reflexivity. }
        { apply Forall_app. split; [exact H10|]. repeat constructor. }
      * exists (sys_step E plugins y (Resume i)), [], [Resume i]. rewrite app_nil_r. split; [|reflexivity]. rewrite Hst.
        split; unfold d_proc, d_set_proc in *; cbn [ d_srv d_live d_gone d_calls d_order v_proc r_proc r_links y_st y_live y_gone y_out]; try assumption; try reflexivity.
        { change (<[i := g']> (y_live y)) with (<[i := snd (k, g')]> (y_live y)). rewrite <- H2. apply (list_fmap_insert snd). }
        { rewrite map_app, H4. reflexivity. }
        { rewrite run_app, <- H6. symmetry. exact Hst. }
        { intros Hi. apply Forall_app. split; [apply H7, Hi|]. repeat constructor. }
        { rewrite lines_app, H8. cbn. rewrite app_nil_r. reflexivity. }
        { apply Forall_app. split; [exact H10|]. repeat constructor. }
    + exists (sys_step E plugins y (Resume i)), [], [Resume i]. rewrite app_nil_r. split; [|reflexivity]. rewrite Hst.
      split; unfold d_proc, d_set_proc in *; cbn [ d_srv d_live d_gone d_calls d_order v_proc r_proc r_links y_st y_live y_gone y_out]; try assumption; try reflexivity.
      { rewrite <- H2. clear. generalize (d_live d). intros l. revert i. induction l as [|z l IH]; intros [|i]; cbn; auto. f_equal. apply IH. }
      { rewrite run_app, <- H6. symmetry. exact Hst. }
      { intros Hi. apply Forall_app. split; [apply H7, Hi|]. repeat constructor. }
      { rewrite lines_app, H8. cbn. rewrite app_nil_r. reflexivity. }
      { apply Forall_app. split; [exact H10|]. repeat constructor. }
    + exists (sys_step E plugins y (Resume i)), [], [Resume i]. rewrite app_nil_r. split; [|reflexivity]. rewrite Hst.
      split; unfold d_proc, d_set_proc in *; cbn [ d_srv d_live d_gone d_calls d_order v_proc r_proc r_links y_st y_live y_gone y_out]; try assumption; try reflexivity.
      { rewrite <- H2. clear. generalize (d_live d). intros l. revert i. induction l as [|z l IH]; intros [|i]; cbn; auto. f_equal. apply IH. }
      { rewrite run_app, <- H6. symmetry. exact Hst. }
      { intros Hi. apply Forall_app. split; [apply H7, Hi|]. repeat constructor. }
      { rewrite lines_app, H8. cbn. rewrite app_nil_r. reflexivity. }
      { apply Forall_app. split; [exact H10|]. repeat constructor. }
Qed.

Lemma follow_recvs ts : forall y j, follow (map Recv ts) y j = ([], Under_way j).
Proof using Type. induction ts as [|t ts IH]; intros y j; [reflexivity|]. cbn [map FlushSched.follow]. apply IH. Qed.
Lemma sent_snoc {S} k k' v r ks (s : @server (@rst S)) n o lv gn bg cs en :
  sent_by k (Dm ks s n o lv gn bg (cs ++ [(k', v, r)]) en) = sent_by k (Dm ks s n o lv gn bg cs en) ++ (if (k' =? k)%nat then [v] else []).
Proof using Type.
  unfold sent_by. cbn [d_calls]. rewrite List.filter_app, map_app. cbn [List.filter fst]. destruct (k' =? k)%nat; reflexivity.
Qed.

(** the [k]-th flush of the daemon is the one followed among the events of its processor *)
Record tracks (k : nat) (y1 : @sys NN) (i0 : nat) (d : @daemon NN mst) (evs : list event) (f : fate) : Prop := {
  tk_sent : follow evs y1 i0 = (sent_by k d, f);
  tk_begun : (k < d_begun d)%nat;
  tk_live : forall j g, d_live d !! j = Some (k, g) -> f = Under_way j;
  tk_self : forall j, f = Under_way j -> exists g, d_live d !! j = Some (k, g);
  tk_ended : In (k, None) (d_ended d) -> f = Completed }.

Lemma track_step k y1 i0 d evs f e new : y_st (sys_run E plugins evs y1) = d_proc d -> y_live (sys_run E plugins evs y1) = map snd (d_live d) ->
  tracks k y1 i0 d evs f -> happens d e new -> exists f', tracks k y1 i0 (step d e) (evs ++ new) f'.
Proof using Type.
  intros Hst Hlive [T1 T2 T3 T4 T5] Hh.
  assert (Hcut : forall l' f', (forall j, f = Under_way j -> follow new (sys_run E plugins evs y1) j = (l', f')) -> (over f -> l' = [] /\ f' = f) ->
    follow (evs ++ new) y1 i0 = (sent_by k d ++ l', f')).
  { intros l' f' H1 H2. destruct f as [j| |x|].
    - rewrite (follow_cut E plugins _ _ _ _ _ _ T1), (H1 j eq_refl). reflexivity.
    - destruct (H2 Logic.I) as [-> ->]. rewrite app_nil_r. apply follow_over; [exact T1|exact Logic.I].
    - destruct (H2 Logic.I) as [-> ->]. rewrite app_nil_r. apply follow_over; [exact T1|exact Logic.I].
    - destruct (H2 Logic.I) as [-> ->]. rewrite app_nil_r. apply follow_over; [exact T1|exact Logic.I]. }
  assert (Hquiet : forall ts ks s' n o, new = map Recv ts ->
    exists f', tracks k y1 i0 (Dm ks s' n o (d_live d) (d_gone d) (d_begun d) (d_calls d) (d_ended d)) (evs ++ new) f').
  { intros ts ks s' n o Hn. exists f. split; cbn [d_begun d_live d_ended]; try assumption.
    rewrite (Hcut [] f); [rewrite app_nil_r; reflexivity| |auto]. intros j ->. rewrite Hn. apply follow_recvs. }
  destruct e as [e|m| |i l|i]; cbn [dstep].
  - destruct Hh as [ts Hn]. destruct (sstep _ _ _ _ _ e) as [ks s']. exact (Hquiet ts _ _ _ _ Hn).
  - destruct Hh as [ts Hn]. destruct (r_process G _ rs m _) as [p r]. exact (Hquiet ts _ _ _ _ Hn).
  - cbn [happens] in Hh. exists f. split; cbn [d_begun d_live d_ended].
    + rewrite (Hcut [] f); [rewrite app_nil_r; reflexivity| |auto]. intros j ->. rewrite Hh. reflexivity.
    + lia.
    + intros j g Hj. apply lookup_app_Some in Hj. destruct Hj as [Hj|[_ Hj]]; [exact (T3 j g Hj)|].
      apply list_lookup_singleton_Some in Hj. destruct Hj as [_ Hj]. injection Hj as Hj _. exfalso. clear - T2 Hj. lia.
    + intros j Hf. destruct (T4 j Hf) as [g Hg]. exists g. apply lookup_app_l_Some. exact Hg.
    + exact T5.
  - destruct Hh as [ts Hn]. exact (Hquiet ts _ _ _ _ Hn).
  - cbn [happens] in Hh. destruct (d_live d !! i) as [[k' g]|] eqn:El.
    2:{ subst new. exists f. rewrite app_nil_r. split; assumption. }
    assert (Hy : y_live (sys_run E plugins evs y1) !! i = Some g) by (rewrite Hlive, list_lookup_fmap, El; reflexivity).
    assert (Hown : forall j, f = Under_way j -> k' = k <-> i = j).
    { intros j Hf. split.
      - intros ->. apply T3 in El. congruence.
      - intros ->. destruct (T4 j Hf) as [g0 Hg0]. congruence. }
    assert (Hover : over f -> k' <> k).
    { intros Ho ->. apply T3 in El. subst f. exact Ho. }
    rewrite <- Hst in Hh |- *. destruct (gnext g (y_st (sys_run E plugins evs y1))) as [p o] eqn:Eg. cbn [snd] in Hh.
    assert (Hdel : forall ks (s : @server (@rst mst)) n ord gn bg cs en l' f', bg = d_begun d ->
      sent_by k (Dm ks s n ord (delete i (d_live d)) gn bg cs en) = sent_by k d ++ l' ->
      (forall j, f = Under_way j -> follow new (sys_run E plugins evs y1) j = (l', f') /\
         match f' with Under_way j' => i <> j /\ j' = (if (i <? j)%nat then (j - 1)%nat else j) | _ => i = j end) ->
      (over f -> l' = [] /\ f' = f) ->
      (In (k, None) en -> In (k, None) (d_ended d) \/ (k' = k /\ f' = Completed)) ->
      tracks k y1 i0 (Dm ks s n ord (delete i (d_live d)) gn bg cs en) (evs ++ new) f').
    { intros ks s n ord gn bg cs en l' f' -> Hs Hf Ho He. split; cbn [d_begun d_live d_ended].
      - rewrite Hs. apply Hcut; [|exact Ho]. intros j Hj. apply (Hf j Hj).
      - exact T2.
      - intros j g1 Hj. apply del_lookup in Hj. pose proof (T3 _ _ Hj) as Hu. destruct (Hf _ Hu) as [_ Hm].
        destruct f' as [j'| |x|].
        + destruct Hm as [Hne ->]. f_equal. clear - Hne. destruct (Nat.ltb_spec j i) as [Hji|Hji].
          * destruct (Nat.ltb_spec i j); lia.
          * destruct (Nat.ltb_spec i (S j)); lia.
        + exfalso. clear - Hm. destruct (Nat.ltb_spec j i); lia.
        + exfalso. clear - Hm. destruct (Nat.ltb_spec j i); lia.
        + exfalso. clear - Hm. destruct (Nat.ltb_spec j i); lia.
      - intros j' ->. destruct f as [j| |x|]; [|destruct (Ho Logic.I) as [_ Hx]; discriminate..].
        destruct (Hf j eq_refl) as [_ [Hne ->]]. destruct (T4 j eq_refl) as [g1 Hg1]. exists g1. apply del_other; assumption.
      - intros Hi. destruct (He Hi) as [Hi'|[_ Hc]]; [|exact Hc]. pose proof (T5 Hi') as ->. apply (Ho Logic.I). }
    assert (Hsame : forall ks (s : @server (@rst mst)) n ord lv gn bg en, sent_by k (Dm ks s n ord lv gn bg (d_calls d) en) = sent_by k d) by reflexivity.
    assert (Hres : forall j, follow [Resume i] (sys_run E plugins evs y1) j =
      match o with
      | Yielded v _ => if (i =? j)%nat then ([v], Under_way j) else ([], Under_way j)
      | Finished => if (i =? j)%nat then ([], Completed) else ([], Under_way (if (i <? j)%nat then (j - 1)%nat else j))
      | Raised x => if (i =? j)%nat then ([], Broken x) else ([], Under_way (if (i <? j)%nat then (j - 1)%nat else j))
      end).
    { intros j. cbn [FlushSched.follow]. rewrite Hy, Eg. cbn [snd]. destruct o; destruct (i =? j)%nat; reflexivity. }
    destruct o as [v g'| |x].
    + destruct (refuses (length (d_calls d)) v) as [x|].
      * assert (Hf2 : forall j, follow [Resume i; Drop i] (sys_run E plugins evs y1) j =
          if (i =? j)%nat then ([v], Abandoned) else ([], Under_way (if (i <? j)%nat then (j - 1)%nat else j))).
        { intros j. change [Resume i; Drop i] with ([Resume i] ++ [Drop i]).
          assert (Hd : forall j0, follow [Drop i] (sys_run E plugins [Resume i] (sys_run E plugins evs y1)) j0 =
            if (i =? j0)%nat then ([], Abandoned) else ([], Under_way (if (i <? j0)%nat then (j0 - 1)%nat else j0))).
          { intros j0. cbn [FlushSched.follow]. cbn [Sched.sys_run fold_left]. cbn [sys_step]. fold (sys_run E plugins evs y1). rewrite Hy, Eg. cbn [y_live].
            rewrite list_lookup_insert by (eapply lookup_lt_Some, Hy). reflexivity. }
          destruct (i =? j)%nat eqn:Eij.
          - rewrite (follow_cut E plugins _ _ _ _ [v] j) by (rewrite Hres, Eij; reflexivity). rewrite Hd, Eij. reflexivity.
          - rewrite (follow_cut E plugins _ _ _ _ [] j) by (rewrite Hres, Eij; reflexivity). rewrite Hd, Eij. reflexivity. }
        exists (match f with Under_way j => if (i =? j)%nat then Abandoned else Under_way (if (i <? j)%nat then (j - 1)%nat else j) | _ => f end).
        apply (Hdel _ _ _ _ _ _ _ _ (match f with Under_way j => if (i =? j)%nat then [v] else [] | _ => [] end)); [reflexivity|rewrite sent_snoc, Hsame; f_equal| | |].
        { destruct f as [j| |y|]; [|rewrite (proj2 (Nat.eqb_neq _ _) (Hover Logic.I)); reflexivity..].
          pose proof (Hown j eq_refl) as Ho. destruct (Nat.eqb_spec i j) as [Hij|Hij]; destruct (Nat.eqb_spec k' k) as [Hk|Hk]; tauto. }
        { intros j ->. rewrite Hh, Hf2. destruct (Nat.eqb_spec i j); auto. }
        { intros Ho. destruct f; [destruct Ho|auto..]. }
        { intros Hi. apply in_app_or in Hi. destruct Hi as [Hi|[Hi|[]]]; [auto|discriminate]. }
      * exists f. split; cbn [d_begun d_live d_ended].
        { rewrite sent_snoc, Hsame. apply Hcut.
          - intros j Hf. rewrite Hh, Hres, Hf. pose proof (Hown j Hf) as Ho. destruct (Nat.eqb_spec i j) as [Hij|Hij]; destruct (Nat.eqb_spec k' k) as [Hk|Hk]; tauto.
          - intros Ho. rewrite (proj2 (Nat.eqb_neq _ _) (Hover Ho)). auto. }
        { exact T2. }
        { intros j g1 Hj. destruct (decide (i = j)) as [->|Hne].
          - rewrite list_lookup_insert in Hj by (eapply lookup_lt_Some, El). injection Hj as -> _. exact (T3 _ _ El).
          - rewrite list_lookup_insert_ne in Hj by exact Hne. exact (T3 _ _ Hj). }
        { intros j Hf. destruct (decide (i = j)) as [->|Hne].
          - exists g'. rewrite list_lookup_insert by (eapply lookup_lt_Some, El). rewrite (proj2 (Hown j Hf) eq_refl). reflexivity.
          - rewrite list_lookup_insert_ne by exact Hne. exact (T4 j Hf). }
        { exact T5. }
    + exists (match f with Under_way j => if (i =? j)%nat then Completed else Under_way (if (i <? j)%nat then (j - 1)%nat else j) | _ => f end).
      apply (Hdel _ _ _ _ _ _ _ _ []); [reflexivity|rewrite app_nil_r; apply Hsame| | |].
      { intros j ->. rewrite Hh, Hres. destruct (Nat.eqb_spec i j); auto. }
      { intros Ho. destruct f; [destruct Ho|auto..]. }
      { intros Hi. apply in_app_or in Hi. destruct Hi as [Hi|[Hi|[]]]; [auto|]. injection Hi as Hi. right. split; [exact Hi|].
        destruct f as [j| |y|]; [|destruct (Hover Logic.I Hi)..]. rewrite (proj2 (Nat.eqb_eq _ _) (proj1 (Hown j eq_refl) Hi)). reflexivity. }
    + exists (match f with Under_way j => if (i =? j)%nat then Broken x else Under_way (if (i <? j)%nat then (j - 1)%nat else j) | _ => f end).
      apply (Hdel _ _ _ _ _ _ _ _ []); [reflexivity|rewrite app_nil_r; apply Hsame| | |].
      { intros j ->. rewrite Hh, Hres. destruct (Nat.eqb_spec i j); auto. }
      { intros Ho. destruct f; [destruct Ho|auto..]. }
      { intros Hi. apply in_app_or in Hi. destruct Hi as [Hi|[Hi|[]]]; [auto|discriminate]. }
Qed.

(** the flushes are numbered in the order they are begun *)
Definition numbered (d : @daemon NN mst) : Prop :=
  Forall (fun x => (fst x < d_begun d)%nat) (d_live d) /\ Forall (fun c => (fst (fst c) < d_begun d)%nat) (d_calls d) /\
  Forall (fun x => (fst x < d_begun d)%nat) (d_ended d).
Lemma numbered_step d e : numbered d -> numbered (step d e).
Proof using Type.
  intros (H1 & H2 & H3). destruct e as [e|m| |i l|i]; cbn [dstep].
  - destruct (sstep _ _ _ _ _ e) as [ks s']. split; [exact H1|]. split; [exact H2|exact H3].
  - destruct (r_process G _ rs m _) as [p r]. split; [exact H1|]. split; [exact H2|exact H3].
  - unfold numbered. cbn [d_live d_begun d_calls d_ended]. split; [|split].
    + apply Forall_app. split; [eapply Forall_impl; [exact H1|]; cbn; intros; apply Nat.lt_lt_succ_r; assumption|]. constructor; [cbn; apply Nat.lt_succ_diag_r|constructor].
    + eapply Forall_impl; [exact H2|]; cbn; intros; apply Nat.lt_lt_succ_r; assumption.
    + eapply Forall_impl; [exact H3|]; cbn; intros; apply Nat.lt_lt_succ_r; assumption.
  - split; [exact H1|]. split; [exact H2|exact H3].
  - destruct (d_live d !! i) as [[k g]|] eqn:El; [|split; [exact H1|split; [exact H2|exact H3]]].
    assert (Hk : (k < d_begun d)%nat) by exact (proj1 (Forall_lookup _ _) H1 i (k, g) El).
    assert (Hdel : Forall (fun x => (fst x < d_begun d)%nat) (delete i (d_live d))) by (apply Forall_delete; exact H1).
    destruct (gnext g (d_proc d)) as [p [v g'| |x]]; [destruct (refuses _ v) as [x|]|..]; unfold numbered; cbn [d_live d_begun d_calls d_ended];
      (split; [try exact Hdel|split; [try exact H2|try exact H3]]);
      try (apply Forall_app; split; [assumption|constructor; [exact Hk|constructor]]).
    apply Forall_insert; [exact H1|exact Hk].
Qed.
Lemma numbered_run es : forall d, numbered d -> numbered (run d es).
Proof using Type. induction es as [|e es IH]; intros d H; [exact H|]. cbn [drun fold_left]. apply IH, numbered_step, H. Qed.

Lemma sim_run_new evs : forall d y tss es, simulates d y tss es ->
  (forall m, In m (d_order (run d evs)) -> exists ts, delivers G rws m ts) ->
  exists y' tts new, simulates (run d evs) y' (tss ++ tts) (es ++ new).
Proof using Hb Hr.
  induction evs as [|e evs IH]; intros d y tss es Hs Hm; [exists y, [], []; rewrite !app_nil_r; exact Hs|].
  cbn [drun fold_left] in *. change (fold_left step evs (step d e)) with (run (step d e) evs) in *.
  destruct (sim_step_new d y tss es e Hs) as (y1 & tts & new & H1 & _).
  - intros m Hi. apply Hm. destruct (order_grows_all E plugins G interval percent cfg max closes refuses rs evs (step d e)) as [x ->]. apply in_or_app. auto.
  - destruct (IH _ _ _ _ H1 Hm) as (y2 & tts2 & new2 & H2). exists y2, (tts ++ tts2), (new ++ new2). rewrite !app_assoc. exact H2.
Qed.
Lemma track_run k evs1 i0 evs : forall d y tss evs2 f,
  simulates d y tss ((evs1 ++ [Start interval percent]) ++ evs2) -> tracks k (sys_run E plugins (evs1 ++ [Start interval percent]) sys_init) i0 d evs2 f ->
  (forall m, In m (d_order (run d evs)) -> exists ts, delivers G rws m ts) ->
  exists y' tts new f', simulates (run d evs) y' (tss ++ tts) ((evs1 ++ [Start interval percent]) ++ evs2 ++ new) /\
    tracks k (sys_run E plugins (evs1 ++ [Start interval percent]) sys_init) i0 (run d evs) (evs2 ++ new) f'.
Proof using Hb Hr.
  induction evs as [|e evs IH]; intros d y tss evs2 f Hs Ht Hm; [exists y, [], [], f; rewrite !app_nil_r; split; assumption|].
  cbn [drun fold_left] in *. change (fold_left step evs (step d e)) with (run (step d e) evs) in *.
  destruct (sim_step_new d y tss _ e Hs) as (y1 & tts & new & H1 & Hh).
  - intros m Hi. apply Hm. destruct (order_grows_all E plugins G interval percent cfg max closes refuses rs evs (step d e)) as [x ->]. apply in_or_app. auto.
  - destruct Hs as [S1 S2 _ _ _ S6 _ _ _ _]. rewrite run_app in S6.
    destruct (track_step _ _ _ _ _ _ _ _ (eq_trans (eq_sym (f_equal y_st S6)) (eq_sym S1)) (eq_trans (eq_sym (f_equal y_live S6)) (eq_sym S2)) Ht Hh) as [f1 Ht1].
    rewrite <- app_assoc in H1. destruct (IH _ _ _ _ _ H1 Ht1 Hm) as (y2 & tts2 & new2 & f2 & H2 & H3).
    exists y2, (tts ++ tts2), (new ++ new2), f2. rewrite !app_assoc in *. auto.
Qed.

Lemma daemon_flush addrs links es1 es2 : length links = length ls ->
  let d1 := run (d_new addrs links mp_init) es1 in
  let d := run d1 (DFlush :: es2) in
  (forall m, In m (d_order d) -> exists ts, delivers G rws m ts) ->
  exists tss1 tss2 evs1 evs2 f,
    Forall2 (delivers G rws) (d_order d1) tss1 /\ Forall2 (delivers G rws) (d_order d) (tss1 ++ tss2) /\
    lines evs1 = concat tss1 /\ lines evs2 = concat tss2 /\
    d_proc d1 = y_st (sys_run E plugins (evs1 ++ [Start interval percent]) sys_init) /\
    d_proc d = y_st (sys_run E plugins evs2 (sys_run E plugins (evs1 ++ [Start interval percent]) sys_init)) /\
    follow evs2 (sys_run E plugins (evs1 ++ [Start interval percent]) sys_init) (length (y_live (sys_run E plugins evs1 sys_init))) = (sent_by (d_begun d1) d, f) /\
    (In (d_begun d1, None) (d_ended d) -> f = Completed).
Proof using Hb Hr.
  intros Hl d1 d Hm.
  assert (Hm1 : forall m, In m (d_order d1) -> exists ts, delivers G rws m ts).
  { intros m Hi. apply Hm. unfold d. destruct (order_grows_all E plugins G interval percent cfg max closes refuses rs (DFlush :: es2) d1) as [x ->]. apply in_or_app. auto. }
  destruct (daemon_refines E plugins G interval percent cfg max closes refuses config ls rs rws Hb Hr addrs links es1 Hl Hm1) as (y1 & tss1 & evs1 & Hs1).
  fold d1 in Hs1.
  assert (Hnum : numbered d1) by (apply numbered_run; split; [constructor|split; constructor]).
  change d with (run (step d1 DFlush) es2) in *.
  destruct (sim_step_new d1 y1 tss1 evs1 DFlush Hs1) as (y2 & tts & new & Hs2 & Hh).
  { intros m Hi. apply Hm. destruct (order_grows_all E plugins G interval percent cfg max closes refuses rs es2 (step d1 DFlush)) as [x ->]. apply in_or_app. auto. }
  cbn [happens] in Hh. subst new.
  destruct Hs1 as [A1 A2 A3 A4 A5 A6 A7 A8 A9 A10].
  assert (Htts : concat tts = []).
  { destruct Hs2 as [_ _ _ _ _ _ _ B8 _ _]. rewrite lines_app, concat_app, A8 in B8. cbn in B8. apply app_inv_head in B8. symmetry. exact B8. }
  assert (Ht : tracks (d_begun d1) (sys_run E plugins (evs1 ++ [Start interval percent]) sys_init) (length (y_live (sys_run E plugins evs1 sys_init)))
    (step d1 DFlush) [] (Under_way (length (y_live (sys_run E plugins evs1 sys_init))))).
  { destruct Hnum as (N1 & N2 & N3). rewrite <- A6, <- A2, map_length. split; cbn [dstep d_begun d_live d_ended].
    - cbn. f_equal. unfold sent_by. cbn [d_calls].
      assert (Hf : forall cs : list (nat * dp * option exn), Forall (fun c => (fst (fst c) < d_begun d1)%nat) cs -> List.filter (fun c => Nat.eqb (fst (fst c)) (d_begun d1)) cs = []).
      { induction 1 as [|c cs Hc _ IHc]; [reflexivity|]. cbn. rewrite (proj2 (Nat.eqb_neq _ _) (Nat.lt_neq _ _ Hc)). exact IHc. }
      rewrite (Hf _ N2). reflexivity.
    - apply Nat.lt_succ_diag_r.
    - intros j g Hj. apply lookup_app_Some in Hj. destruct Hj as [Hj|[Hge Hj]].
      + pose proof (proj1 (Forall_lookup _ _) N1 j _ Hj) as Hlt. cbn in Hlt. exfalso. exact (Nat.lt_irrefl _ Hlt).
      + apply list_lookup_singleton_Some in Hj. destruct Hj as [Hj _]. f_equal. apply Nat.sub_0_le in Hj. apply Nat.le_antisymm; assumption.
    - intros j Hj. injection Hj as <-. exists fl. rewrite lookup_app_r by apply Nat.le_refl. rewrite Nat.sub_diag. reflexivity.
    - intros Hi. pose proof (proj1 (List.Forall_forall _ _) N3 _ Hi) as Hlt. cbn in Hlt. exfalso. exact (Nat.lt_irrefl _ Hlt). }
  rewrite <- (app_nil_r (evs1 ++ [Start interval percent])) in Hs2.
  destruct (track_run _ _ _ es2 _ _ _ _ _ Hs2 Ht Hm) as (y3 & tts3 & new & f & [C1 C2 C3 C4 C5 C6 C7 C8 C9 C10] & [T1 _ _ _ T5]).
  cbn [app] in *. exists tss1, (tts ++ tts3), evs1, new, f. rewrite <- app_assoc in C9.
  split; [exact A9|]. split; [exact C9|]. split; [exact A8|]. split.
  { rewrite !lines_app, !concat_app, A8, Htts, app_nil_r in C8. cbn in C8. rewrite app_nil_r in C8. apply app_inv_head in C8. rewrite concat_app, Htts. exact C8. }
  split; [rewrite run_app, <- A6; exact A1|]. split; [rewrite <- run_app, <- C6; exact C1|]. split; [exact T1|exact T5].
Qed.

(** what a completed flush of the daemon has given to carbon *)
Lemma daemon_completed addrs links es1 es2 : length links = length ls -> 1000 <= interval ->
  let d1 := run (d_new addrs links mp_init) es1 in
  let d := run d1 (DFlush :: es2) in
  (forall m, In m (d_order d) -> exists ts, delivers G rws m ts) ->
  In (d_begun d1, None) (d_ended d) ->
  exists tss1 tss2 (st : nat -> mst) last late late' ts a b c u e f cs tm gs ms ps kinds types dc dt dg dm dpl,
    let nc := Z.of_nat (length cs) in
    let nt := Z.of_nat (length (List.filter nonempty tm)) in
    let ng := Z.of_nat (length gs) in
    let nm := Z.of_nat (length ms) in
    let np := Z.of_nat (length ps) in
    Forall2 (delivers G rws) (d_order d1) tss1 /\ Forall2 (delivers G rws) (d_order d) (tss1 ++ tss2) /\
    st 0%nat = d_proc d1 /\ st last = d_proc d /\ (f < last)%nat /\ ntrunc (e_clock E (w_clk (p_w (st a)))) = Ok ts /\
    taken p_counter st a b (fun k v l => l = counter_lines (interval / 1000) ts (k, v)) cs /\
    taken p_timer st b c (timer_report percent ts) tm /\
    ((c <= u)%nat /\ late `prefix_of` late' /\ late' `prefix_of` concat tss2 /\
     picks (fun m '(v, key) => gauge_sample m key v) (concat tss1 ++ late) gs /\
     picks (fun m '(v, key) => gauge_sample m key v) (concat tss1 ++ late') gs) /\
    taken p_meter st u e (meter_taken ts) ms /\
    taken p_plug st e f (plug_taken E ts) ps /\
    kinds ≡ₚ [(B "counter", (nc, dc)); (B "timer", (nt, dt)); (B "gauge", (ng, dg));
              (B "meter", (nm, dm)); (B "plugin", (np, dpl))] /\
    Forall (named (B "statsd.receive.")) types /\
    sent_by (d_begun d1) d = concat cs ++ concat tm ++ map (gauge_line ts) gs ++ concat ms ++ concat ps ++
          DP (B "statsd.numStats") (VI (nc + nt + ng + nm + np)) ts ::
          flat_map (fun '(name, (n, x)) => summary_lines (B "flush") ts name n x) kinds ++ types.
Proof using Hb Hr.
  intros Hl Hi d1 d Hm Hend.
  destruct (daemon_flush addrs links es1 es2 Hl Hm) as (tss1 & tss2 & evs1 & evs2 & f0 & P1 & P2 & P3 & P4 & P5 & P6 & P7 & P8).
  fold d1 in P1, P2, P5, P6, P7, P8. fold d in P2, P6, P7, P8. rewrite (P8 Hend) in P7.
  destruct (completed_flush E plugins evs1 interval percent evs2 _ Hi P7) as
    (ts & a & b & c & u & e & f & cs & tm & gs & ms & ps & kinds & types & dc & dt & dg & dm & dpl & Q1 & Q2 & Q3 & Q4 & (Q5 & Q6 & Q7) & Q8).
  exists tss1, tss2, (at_moment E plugins (sys_run E plugins (evs1 ++ [Start interval percent]) sys_init) evs2), (length evs2), (lines (firstn c evs2)), (lines (firstn u evs2)).
  exists ts, a, b, c, u, e, f, cs, tm, gs, ms, ps, kinds, types, dc, dt, dg, dm, dpl.
  split; [exact P1|]. split; [exact P2|]. split; [rewrite P5; reflexivity|]. split; [unfold at_moment; rewrite firstn_all; symmetry; exact P6|].
  split; [exact Q1|]. split; [exact Q2|]. split; [exact Q3|]. split; [exact Q4|]. split; [|exact Q8].
  rewrite lines_app_events, P3 in Q6, Q7. split; [exact Q5|]. split; [|split; [|split; [exact Q6|exact Q7]]].
  - exists (lines (skipn c (firstn u evs2))). rewrite <- lines_app_events. f_equal.
    rewrite <- (firstn_skipn c (firstn u evs2)) at 1. f_equal. rewrite firstn_firstn, Nat.min_l by exact Q5. reflexivity.
  - exists (lines (skipn u evs2)). rewrite <- P4, <- lines_app_events, firstn_skipn. reflexivity.
Qed.
Lemma daemon_none_left_out addrs links es1 es2 : length links = length ls -> 1000 <= interval ->
  let d1 := run (d_new addrs links mp_init) es1 in
  let d := run d1 (DFlush :: es2) in
  (forall m, In m (d_order d) -> exists ts, delivers G rws m ts) ->
  In (d_begun d1, None) (d_ended d) ->
  exists tss1 ts, Forall2 (delivers G rws) (d_order d1) tss1 /\
    (forall key m, In m (concat tss1) -> counter_touch m key ->
       exists v, In (DP (B "stats." ++ key) (VF (ndiv v (nofZ (interval / 1000)))) ts) (sent_by (d_begun d1) d) /\ In (DP (B "stats_counts." ++ key) (VF v) ts) (sent_by (d_begun d1) d)) /\
    (forall key v m, In m (concat tss1) -> gauge_sample m key v -> In (DP (B "stats.gauge." ++ key ++ B ".value") (VF v) ts) (sent_by (d_begun d1) d)).
Proof using Hb Hr.
  intros Hl Hi d1 d Hm Hend.
  destruct (daemon_flush addrs links es1 es2 Hl Hm) as (tss1 & tss2 & evs1 & evs2 & f0 & P1 & P2 & P3 & P4 & P5 & P6 & P7 & P8).
  fold d1 in P1, P2, P5, P6, P7, P8. fold d in P2, P6, P7, P8. rewrite (P8 Hend) in P7.
  destruct (none_left_out E plugins evs1 interval percent evs2 _ Hi P7) as (ts & H). exists tss1, ts. rewrite <- P3. split; [exact P1|exact H].
Qed.
End processor.

(** ** Lines no rule matches *)
Lemma picks_one {A} (P : str -> A -> Prop) ms : forall a, picks P ms [a] -> exists m, In m ms /\ P m a.
Proof.
  induction ms as [|m ms IH]; intros a H; inversion H; subst; [exists m; split; [left; reflexivity|assumption]|].
  destruct (IH a) as (m' & Hi & Hp); [assumption|]. exists m'. split; [right; exact Hi|exact Hp].
Qed.
Lemma skipped_in {A} (P : str -> A -> Prop) G rws ms tss m a : reads_metric P -> Forall (unmatched rws) ms -> Forall2 (delivers G rws) ms tss ->
  In m ms -> P m a -> exists m', In m' (concat tss) /\ P m' a.
Proof.
  intros HP Hu H. induction H as [|m0 ts ms tss Hd _ IH]; intros Hi Hm; [destruct Hi|].
  inversion_clear Hu as [|? ? Hu0 Hu']. destruct Hi as [->|Hi].
  - destruct (picks_one P ts a) as (m' & Hi & Hp).
    + apply (skipped_reads G rws P m ts HP Hu0 Hd). apply picks_hit; [exact Hm|constructor].
    + exists m'. split; [cbn; apply in_or_app; left; exact Hi|exact Hp].
  - destruct (IH Hu' Hi Hm) as (m' & Hi' & Hp). exists m'. split; [cbn; apply in_or_app; right; exact Hi'|exact Hp].
Qed.
Lemma touch_reads `{NN : Num} : reads_metric (fun m key => counter_touch m key).
Proof.
  split.
  - intros m m' key Heq [f0 v Ht Hv|f0 f2 r v Ht Hv Hr]; [eapply ct_plain|eapply ct_rate]; try eassumption; apply Heq; exact Ht.
  - intros m key [f0 v Ht Hv|f0 f2 r v Ht Hv Hr]; eauto.
Qed.
Lemma unmatched_none_left_out `{NN : Num} (E : env) plugins G interval percent cfg max closes refuses config ls rs rws addrs links es1 es2 :
  build_rules G true config [] = (ls, Ok rs) -> rules_of config rws -> length links = length ls -> 1000 <= interval ->
  let C := mp_cls E plugins in
  let run := drun (S := mst) G (process_message E C) (flush E C interval percent) rs cfg max closes refuses in
  let d1 := run (d_new addrs links mp_init) es1 in
  let d := run d1 (DFlush :: es2) in
  Forall (unmatched rws) (d_order d) -> In (d_begun d1, None) (d_ended d) ->
  exists ts,
    (forall key m, In m (d_order d1) -> counter_touch m key ->
       exists v, In (DP (B "stats." ++ key) (VF (ndiv v (nofZ (interval / 1000)))) ts) (sent_by (d_begun d1) d) /\ In (DP (B "stats_counts." ++ key) (VF v) ts) (sent_by (d_begun d1) d)) /\
    (forall key v m, In m (d_order d1) -> gauge_sample m key v -> In (DP (B "stats.gauge." ++ key ++ B ".value") (VF v) ts) (sent_by (d_begun d1) d)).
Proof.
  intros Hb Hr Hl Hi C run d1 d Hu Hend.
  destruct (daemon_none_left_out E plugins G interval percent cfg max closes refuses config ls rs rws Hb Hr addrs links es1 es2 Hl Hi) as (tss1 & ts & H1 & H2 & H3).
  - intros m Hm. apply skipped. exact (proj1 (List.Forall_forall _ _) Hu m Hm).
  - exact Hend.
  - assert (Hu1 : Forall (unmatched rws) (d_order d1)).
    { destruct (order_grows_all E plugins G interval percent cfg max closes refuses rs (DFlush :: es2) d1) as [x Hx].
      fold C in Hx. fold run in Hx. change (run d1 (DFlush :: es2)) with d in Hx. rewrite Hx in Hu. apply Forall_app in Hu. apply Hu. }
    exists ts. split.
    + intros key m Hm Ht. destruct (skipped_in (fun m key => counter_touch m key) G rws _ _ m key touch_reads Hu1 H1 Hm Ht) as (m' & Hi' & Ht'). exact (H2 key m' Hi' Ht').
    + intros key v m Hm Ht. destruct (skipped_in (fun m '(v, key) => gauge_sample m key v) G rws _ _ m (v, key) gauge_reads Hu1 H1 Hm Ht) as (m' & Hi' & Ht'). exact (H3 key v m' Hi' Ht').
Qed.

(** ** Every flush ends *)
Section ends.
Context `{NN : Num} {T : Type} (G : engine) (inner : str -> str -> str -> list str -> M T unit) (fl : gen T) (rs : list (rule G)).
Context (cfg : mon) (max : nat) (closes : bool) (refuses : nat -> dp -> option exn).
Notation step := (dstep G inner fl rs cfg max closes refuses).
Notation run := (drun G inner fl rs cfg max closes refuses).
Lemma live_step d e j k g : d_live d !! j = Some (k, g) ->
  (exists j' g', d_live (step d e) !! j' = Some (k, g') /\ (succ_of g' g \/ (g' = g /\ e <> DStep j))) \/
  exists r, In (k, r) (d_ended (step d e)).
Proof using Type.
  intros Hj. destruct e as [e|m| |i l|i]; cbn [dstep].
  - destruct (sstep _ _ _ _ _ e) as [ks s']. left. exists j, g. split; [exact Hj|right; split; [reflexivity|discriminate]].
  - destruct (r_process G _ rs m _) as [p r]. left. exists j, g. split; [exact Hj|right; split; [reflexivity|discriminate]].
  - left. exists j, g. cbn [d_live]. split; [apply lookup_app_l_Some; exact Hj|right; split; [reflexivity|discriminate]].
  - left. exists j, g. split; [exact Hj|right; split; [reflexivity|discriminate]].
  - destruct (d_live d !! i) as [[k' g1]|] eqn:Ei.
    2:{ left. exists j, g. split; [exact Hj|right; split; [reflexivity|congruence]]. }
    destruct (gnext g1 (d_proc d)) as [p o] eqn:Eg. destruct (decide (i = j)) as [->|Hne].
    + rewrite Hj in Ei. injection Ei as <- <-. destruct o as [v g'| |x]; [destruct (refuses _ v) as [x|]|..]; cbn [d_live d_ended].
      * right. eexists. apply in_or_app. right. left. reflexivity.
      * left. exists j, g'. split; [apply list_lookup_insert; eapply lookup_lt_Some, Hj|]. left. exists (d_proc d), v. rewrite Eg. reflexivity.
      * right. eexists. apply in_or_app. right. left. reflexivity.
      * right. eexists. apply in_or_app. right. left. reflexivity.
    + left. destruct o as [v g'| |x]; [destruct (refuses _ v) as [x|]|..]; cbn [d_live].
      * eexists _, g. split; [apply (del_other _ i j _ Hne Hj)|right; split; [reflexivity|congruence]].
      * exists j, g. split; [rewrite list_lookup_insert_ne by exact Hne; exact Hj|right; split; [reflexivity|congruence]].
      * eexists _, g. split; [apply (del_other _ i j _ Hne Hj)|right; split; [reflexivity|congruence]].
      * eexists _, g. split; [apply (del_other _ i j _ Hne Hj)|right; split; [reflexivity|congruence]].
Qed.
Lemma dfirsts_S d ev n : run d (dfirsts ev (S n)) = step (run d (dfirsts ev n)) (ev n).
Proof using Type. unfold dfirsts, drun. rewrite seq_S, map_app, fold_left_app. reflexivity. Qed.
Lemma flush_over d k ev : stepped_again G inner fl rs cfg max closes refuses d k ev -> forall g, Acc succ_of g -> forall n j,
  d_live (run d (dfirsts ev n)) !! j = Some (k, g) -> exists n' r, In (k, r) (d_ended (run d (dfirsts ev n'))).
Proof using Type.
  intros Hfair g Hacc. induction Hacc as [g _ IH]. intros n j Hj. destruct (Hfair n) as (m & Hm & Hst).
  remember (m - n)%nat as q eqn:Eq. revert n j Hj Hm Eq.
  induction q as [|q IHq]; intros n j Hj Hm Eq.
  - assert (n = m) as -> by (clear - Hm Eq; lia).
    destruct (live_step _ (ev m) j k g Hj) as [(j' & g' & H1 & [H2|[_ H2]])|[r Hr]].
    + rewrite <- dfirsts_S in H1. exact (IH g' H2 _ _ H1).
    + destruct H2. exact (Hst j g Hj).
    + exists (S m), r. rewrite dfirsts_S. exact Hr.
  - destruct (live_step _ (ev n) j k g Hj) as [(j' & g' & H1 & H2)|[r Hr]]; [rewrite <- dfirsts_S in H1; destruct H2 as [H2|[-> _]]|].
    + exact (IH g' H2 _ _ H1).
    + apply (IHq (S n) j' H1); clear - Hm Eq; lia.
    + exists (S n), r. rewrite dfirsts_S. exact Hr.
Qed.
(** every flush begun ends *)
Lemma daemon_flush_over d k g j ev : d_live d !! j = Some (k, g) -> stepped_again G inner fl rs cfg max closes refuses d k ev ->
  exists n r, In (k, r) (d_ended (run d (dfirsts ev n))).
Proof using Type. intros Hj Hf. exact (flush_over d k ev Hf g (succ_wf g) 0 j Hj). Qed.
End ends.
