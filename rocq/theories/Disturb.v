(** A flush disturbed by lines that arrive between its items (C13). *)
From Verif Require Import Base StrFacts Num Env Stats Glob Metrics Gen GenFacts Processor
  LineSpec LineFacts FloatFacts ProcFacts ProcSpec ReceiveFacts ReceiveFacts2 ReceiveFacts3 PlugFacts
  Sched FlushInv FlushOk StepFacts FlushRun.

Section drive.
Context `{NN : Num} (E : env) (plugins : list factory).
Notation C := (mp_cls E plugins).
Notation receive := (receive E plugins).
Notation receive_all := (receive_all E plugins).

Inductive progress := Running (g : gen mst) | Done | Failed (e : exn).
(** take one step of the flush after each batch of received lines *)
Fixpoint drive (g : gen mst) (s : mst) (batches : list (list str)) : mst * list dp * progress :=
  match batches with
  | [] => (s, [], Running g)
  | b :: bs =>
      match gnext g (receive_all b s) with
      | (s', Yielded d g') => let '(s2, l, r) := drive g' s' bs in (s2, d :: l, r)
      | (s', Finished) => (s', [], Done)
      | (s', Raised e) => (s', [], Failed e)
      end
  end.

(** *** lines that bring nothing new *)
Definition same_names (s s' : mst) : Prop :=
  dom (p_counter s') = dom (p_counter s) /\ dom (p_timer s') = dom (p_timer s) /\
  length (p_gauge s') = length (p_gauge s) /\ dom (p_meter s') = dom (p_meter s) /\
  dom (p_plug s') = dom (p_plug s) /\ dom (p_ptime s') = dom (p_ptime s).
Fixpoint calm_lines (ms : list str) (s : mst) : Prop :=
  match ms with
  | [] => True
  | m :: ms' => same_names s (receive m s) /\ calm_lines ms' (receive m s)
  end.
Fixpoint calm (g : gen mst) (s : mst) (batches : list (list str)) : Prop :=
  match batches with
  | [] => True
  | b :: bs => calm_lines b s /\
      match gnext g (receive_all b s) with
      | (s', Yielded d g') => calm g' s' bs
      | _ => True
      end
  end.
(** the same, by computation *)
Definition same_namesb (s s' : mst) : bool :=
  bool_decide (dom (p_counter s') = dom (p_counter s)) && bool_decide (dom (p_timer s') = dom (p_timer s)) &&
  Nat.eqb (length (p_gauge s')) (length (p_gauge s)) && bool_decide (dom (p_meter s') = dom (p_meter s)) &&
  bool_decide (dom (p_plug s') = dom (p_plug s)) && bool_decide (dom (p_ptime s') = dom (p_ptime s)).
Fixpoint calm_linesb (ms : list str) (s : mst) : bool :=
  match ms with
  | [] => true
  | m :: ms' => same_namesb s (receive m s) && calm_linesb ms' (receive m s)
  end.
Fixpoint calmb (g : gen mst) (s : mst) (batches : list (list str)) : bool :=
  match batches with
  | [] => true
  | b :: bs => calm_linesb b s &&
      match gnext g (receive_all b s) with
      | (s', Yielded d g') => calmb g' s' bs
      | _ => true
      end
  end.
Lemma same_namesb_sound s s' : same_namesb s s' = true -> same_names s s'.
Proof.
  unfold same_namesb, same_names. rewrite !andb_true_iff, !bool_decide_eq_true, Nat.eqb_eq. tauto.
Qed.
Lemma calm_linesb_sound ms : forall s, calm_linesb ms s = true -> calm_lines ms s.
Proof.
  induction ms as [|m ms IH]; intros s H; [exact Logic.I|]. cbn in *. apply andb_prop in H. destruct H as [H1 H2].
  split; [apply same_namesb_sound; exact H1|apply IH; exact H2].
Qed.
Lemma calmb_sound bs : forall g s, calmb g s bs = true -> calm g s bs.
Proof.
  induction bs as [|b bs IH]; intros g s H; [exact Logic.I|]. cbn [calm calmb] in *. apply andb_prop in H. destruct H as [H1 H2].
  split; [apply calm_linesb_sound; exact H1|]. destruct (gnext g (receive_all b s)) as [s' [d g'| |e]]; auto.
Qed.
Definition runningb (p : progress) : bool := match p with Running _ => true | _ => false end.
Lemma same_names_refl s : same_names s s. Proof. unfold same_names. auto 10. Qed.
Lemma same_names_trans a b c : same_names a b -> same_names b c -> same_names a c.
Proof. unfold same_names. intros H1 H2. decompose [and] H1. decompose [and] H2. repeat split; congruence. Qed.

(** *** a generator that does not raise while [I] holds *)
Section quiet.
Context {S : Type} (I : S -> Prop).
Fixpoint quiet (g : gen S) : Prop :=
  match g with
  | GRet => True
  | GRaise _ => False
  | GAct f => forall s, I s -> (snd (f s) = GRet \/ I (fst (f s))) /\ quiet (snd (f s))
  | GEmit _ k => quiet k
  end.
Lemma gnext_quiet g : forall s s' o, I s -> quiet g -> gnext g s = (s', o) ->
  match o with Raised _ => False | Finished => True | Yielded d g' => I s' /\ quiet g' end.
Proof.
  induction g as [|e|f IH|ms k IH] using gen_ind'; intros s s' o Hs Hg H; cbn [gnext] in H.
  - injection H as <- <-. exact Logic.I.
  - destruct Hg.
  - cbn [quiet] in Hg. destruct (Hg s Hs) as [H1 H2]. specialize (IH s). destruct (f s) as [s1 g1]. cbn [fst snd] in *.
    destruct H1 as [->|H1]; [cbn in H; injection H as <- <-; exact Logic.I|]. exact (IH s1 s' o H1 H2 H).
  - cbn [quiet] in Hg. destruct ms as [|d ms]; [exact (IH s s' o Hs Hg H)|].
    injection H as <- <-. split; [exact Hs|exact Hg].
Qed.
Lemma giter_quiet {X} (xs : list X) u visit k :
  (forall s, I s -> u s = true) ->
  (forall x s, I s -> match visit x s with
                      | (s', Ok (Some (_, post))) => I s' /\ forall s2, I s2 -> I (fst (post s2)) /\ snd (post s2) = Ok tt
                      | (s', Ok None) => I s'
                      | (s', Exn _) => False
                      end) ->
  (forall n, quiet (k n)) -> forall n, quiet (giter xs u visit n k).
Proof.
  intros Hu Hv Hk. induction xs as [|x xs IH]; intros n; cbn [giter quiet]; intros s Hs; rewrite (Hu s Hs); cbn [negb].
  - cbn [fst snd]. auto.
  - specialize (Hv x s Hs). destruct (visit x s) as [s' [[[ms post]|]|e]]; cbn [fst snd quiet].
    + destruct Hv as [H1 H2]. split; [auto|]. intros s2 Hs2. destruct (H2 s2 Hs2) as [H3 H4].
      destruct (post s2) as [s3 r]. cbn [fst snd] in H3, H4. subst r. cbn [fst snd]. auto.
    + auto.
    + destruct Hv.
Qed.
End quiet.

Context (p : Z) (Htimer : forall ds, ds <> [] -> exists t, timer_stats p ds = Ok t)
  (Hmeter : forall m ts, exists ms, snd (meter_report m ts) = Ok ms).
Definition plug_fine (q : plug) : Prop := match q with PSli _ => True | PDist d => ds_hashes (dm_counter d) <> [] end.
Section calm.
Context (s0 : mst).
Definition calm_state (s : mst) : Prop :=
  same_names s0 s /\ (forall t, is_Some (p_ptime s !! t) <-> is_Some (p_btype s !! t)) /\
  forall k q, p_plug s !! k = Some q -> plug_fine q.
Notation I := calm_state.
Notation Quiet := (quiet I).

Definition qloop (loop : (Z -> gen mst) -> gen mst) : Prop := forall k, (forall n, Quiet (k n)) -> Quiet (loop k).
Lemma calm_w s w : I s -> I (set_w w s). Proof. intros H; exact H. Qed.
Lemma gdict_quiet {V} (d : mst -> gmap str V) visit :
  (forall s w, d (set_w w s) = d s) ->
  (forall s s', I s -> I s' -> size (d s') = size (d s)) ->
  (forall key v s, I s -> d s !! key = Some v ->
     match visit key v s with
     | (s', Ok (Some (_, post))) => I s' /\ forall s2, I s2 -> I (fst (post s2)) /\ snd (post s2) = Ok tt
     | (s', Ok None) => I s'
     | (s', Exn _) => False
     end) -> qloop (gdict E d visit).
Proof.
  intros Hw Hsz Hv k Hk s Hs. unfold gdict. destruct (dict_keys E (d s) (p_w s)) as [ks w]. cbn [fst snd].
  split; [right; apply calm_w; exact Hs|]. apply giter_quiet; [| |exact Hk].
  - intros s1 Hs1. apply Nat.eqb_eq. apply Hsz; assumption.
  - intros key s1 Hs1. destruct (d s1 !! key) as [v|] eqn:Ev; [|exact Hs1]. apply Hv; assumption.
Qed.
Lemma timed_quiet loop k : qloop loop -> (forall n x, Quiet (k n x)) -> Quiet (timed E loop k).
Proof.
  intros Hl Hk s Hs. unfold now. cbn [fst snd]. split; [right; apply calm_w; exact Hs|]. apply Hl.
  intros n s1 Hs1. cbn [fst snd]. split; [right; apply calm_w; exact Hs1|apply Hk].
Qed.
Lemma dom_size {V} (m m' : gmap str V) : dom m = dom m' -> size m = size m'.
Proof. intros H. rewrite <- !size_dom, H. reflexivity. Qed.
Ltac sz := let a := fresh in let b := fresh in let HA := fresh in let HB := fresh in intros a b [HA _] [HB _]; apply dom_size; unfold same_names in HA, HB; decompose [and] HA; decompose [and] HB; congruence.
Lemma calm_put (s s' : mst) : I s -> same_names s s' -> p_ptime s' = p_ptime s -> p_btype s' = p_btype s ->
  (forall k q, p_plug s' !! k = Some q -> plug_fine q) -> I s'.
Proof.
  intros (A & B & D) H1 H2 H3 H4. split; [eapply same_names_trans; eassumption|]. rewrite H2, H3. auto.
Qed.
Ltac names := unfold same_names; cbn; repeat split; auto; try (eapply dom_same; eassumption).
Lemma no_post_quiet s2 : I s2 -> I (fst (no_post s2)) /\ snd (no_post s2) = Ok tt. Proof. cbn. auto. Qed.

Lemma body_quiet i ts : 1000 <= i -> Quiet
  (timed E (mp_flush_counter E (i / 1000) ts) (fun nc dc =>
   timed E (mp_flush_timer E p ts) (fun nt dt =>
   timed E (mp_flush_gauge ts) (fun ng dg =>
   timed E (flush_meter E ts) (fun nm dm =>
   timed E (flush_plugins E ts) (fun np dpl =>
     flush_summary E C (nc + nt + ng + nm + np)
       [(B "counter", (nc, dc)); (B "timer", (nt, dt)); (B "gauge", (ng, dg));
        (B "meter", (nm, dm)); (B "plugin", (np, dpl))] ts)))))).
Proof using Htimer Hmeter.
  intros Hi. assert (Hz : i / 1000 <> 0).
  { pose proof (Z.div_mod i 1000 ltac:(lia)). pose proof (Z.mod_pos_bound i 1000 ltac:(lia)). lia. }
  repeat (apply timed_quiet; [|intros]).
  - apply gdict_quiet; [reflexivity|sz|]. intros key v s Hs Hv. destruct (i / 1000 =? 0) eqn:Ez; [lia|].
    split; [|apply no_post_quiet]. apply (calm_put s); [exact Hs|names|reflexivity|reflexivity|apply Hs].
  - apply gdict_quiet; [reflexivity|sz|]. intros key v s Hs Hv. destruct v as [|y v]; [exact Hs|].
    destruct (Htimer (y :: v) ltac:(discriminate)) as [[[[[a b] c] d] e] ->].
    split; [|apply no_post_quiet]. apply (calm_put s); [exact Hs|names|reflexivity|reflexivity|apply Hs].
  - intros k Hk s Hs. cbn [fst snd]. split; [auto|]. apply giter_quiet; [| |exact Hk].
    + intros s1 Hs1. apply Nat.eqb_eq. destruct Hs as [A _], Hs1 as [B _]. unfold same_names in A, B.
      decompose [and] A. decompose [and] B. congruence.
    + intros [v key] s1 Hs1. split; [exact Hs1|apply no_post_quiet].
  - apply gdict_quiet; [reflexivity|sz|]. intros key m s Hs Hv. destruct (Hmeter m ts) as [ms Hms].
    destruct (meter_report m ts) as [m' r]. cbn [snd] in Hms. subst r.
    split; [|apply no_post_quiet]. apply (calm_put s); [exact Hs|names|reflexivity|reflexivity|apply Hs].
  - apply gdict_quiet; [reflexivity|sz|]. intros key q s Hs Hv.
    assert (Hq : plug_fine q) by (eapply Hs; exact Hv).
    assert (Hf : exists q' ms w, plug_flush E q ts (p_w s) = (q', Ok ms, w) /\ plug_fine q').
    { destruct q as [y|d]; cbn [plug_flush].
      - destruct (sli_flush E y ts (p_w s)) as [[y' l] w]. eexists _, _, _. split; [reflexivity|exact Logic.I].
      - cbn in Hq. unfold dmetric_flush, now, distinct_count. destruct (ds_hashes (dm_counter d)) as [|h hs] eqn:Eh; [congruence|].
        eexists _, _, _. split; [reflexivity|]. cbn. rewrite Eh. exact Hq. }
    destruct Hf as (q' & ms & w & -> & Hq'). split; [|apply no_post_quiet].
    apply (calm_put s); [exact Hs|names|reflexivity|reflexivity|].
    cbn. intros k q0 Hk. destruct (decide (key = k)) as [->|Hne].
    + rewrite lookup_insert in Hk. injection Hk as <-. exact Hq'.
    + rewrite lookup_insert_ne in Hk by auto. eapply Hs. exact Hk.
  - cbn [flush_summary quiet]; intros s Hs.
    match goal with |- context [list_to_map ?l] => set (pm := list_to_map l : gmap str (Z * num)) end.
    destruct (dict_keys E pm (p_w s)) as [names w]. cbn [fst snd]. split; [right; exact Hs|].
    apply giter_quiet; [reflexivity| |].
    + intros name s1 Hs1. destruct (pm !! name) as [[ev du]|]; [|exact Hs1]. cbn [summary_kind].
      split; [exact Hs1|]. intros s2 Hs2. cbn [fst snd]. auto.
    + intros _ s1 Hs1. cbn [fst snd]. split; [right; exact Hs1|]. apply gdict_quiet; [reflexivity|sz| |].
      * intros t du s2 Hs2 Ht. unfold summary_type.
        assert (Hb : forall s3, I s3 -> is_Some (p_btype s3 !! t)).
        { intros s3 Hs3. apply Hs3. destruct Hs2 as [A _], Hs3 as [B _]. unfold same_names in A, B.
          decompose [and] A. decompose [and] B.
          assert (Hd : dom (p_ptime s3) = dom (p_ptime s2)) by congruence.
          apply elem_of_dom. rewrite Hd. apply elem_of_dom. eauto. }
        destruct (Hb s2 Hs2) as [nb ->]. split; [exact Hs2|]. intros s3 Hs3. destruct (Hb s3 Hs3) as [nb' ->].
        cbn [fst snd]. auto.
      * intros _ s2 Hs2. cbn [fst snd quiet]. auto.
Qed.

Lemma receive_calm m s : I s -> same_names s (receive m s) -> I (receive m s).
Proof.
  intros (A & B & D) H. split; [eapply same_names_trans; eassumption|]. split.
  - intros t. destruct (receive_ptime E plugins m s) as [[Hb Hp]|(t' & raw & fields & n & x & Hd & Hk & Hb & Hp)]; rewrite Hp, Hb; [apply B|].
    destruct (decide (t' = t)) as [<-|Hne]; [rewrite !lookup_insert; split; eauto|].
    rewrite !lookup_insert_ne by auto. apply B.
  - intros k q Hk. apply plug_receive in Hk.
    destruct Hk as [Hk|(t & raw & fields & f & Hd & -> & Hb & Hf & [(p0 & w & Hp & ->)|(q0 & w & w' & _ & Hq & ->)])].
    + eapply D. exact Hk.
    + apply D in Hp. destruct p0 as [x|d]; cbn [plug_process].
      * destruct (sli_process x fields). exact Logic.I.
      * cbn in Hp. unfold dmetric_process. destruct fields as [|f0 fs]; [exact Hp|]. unfold now. cbn. exact Hp.
    + apply build_named in Hq. destruct q0 as [x|d]; cbn [plug_process plug_named] in *.
      * destruct (sli_process x fields). exact Logic.I.
      * destruct Hq as (_ & _ & Hq). unfold dmetric_process. destruct fields as [|f0 fs]; [exact Hq|]. unfold now. cbn. exact Hq.
Qed.
Lemma receive_all_calm ms : forall s, I s -> calm_lines ms s -> I (receive_all ms s).
Proof.
  induction ms as [|m ms IH]; intros s Hs Hc; [exact Hs|]. destruct Hc as [H1 H2].
  rewrite receive_all_cons. apply IH; [apply receive_calm; assumption|exact H2].
Qed.
Lemma drive_quiet bs : forall g s, I s -> Quiet g -> calm g s bs -> forall e, snd (drive g s bs) <> Failed e.
Proof.
  induction bs as [|b bs IH]; intros g s Hs Hg Hc e; cbn [drive]; [discriminate|].
  cbn [calm] in Hc. destruct Hc as [H1 H2].
  pose proof (gnext_quiet I g (receive_all b s)) as Hq.
  destruct (gnext g (receive_all b s)) as [s' o]. specialize (Hq s' o (receive_all_calm b s Hs H1) Hg eq_refl).
  destruct o as [d g'| |x].
  - destruct Hq as [Q1 Q2]. specialize (IH g' s' Q1 Q2 H2 e). destruct (drive g' s' bs) as [[s2 l] r]. exact IH.
  - discriminate.
  - destruct Hq.
Qed.
End calm.

(** a flush during which nothing new arrives does not raise *)
Lemma calm_flush_ok i (s : mst) batches : 1000 <= i -> Inv s ->
  (forall n, exists ts, ntrunc (e_clock E n) = Ok ts) ->
  calm (flush E C i p) s batches -> forall e, snd (drive (flush E C i p) s batches) <> Failed e.
Proof using Htimer Hmeter.
  intros Hi Hinv Hclk Hc. apply (drive_quiet s); [| |exact Hc].
  - split; [apply same_names_refl|]. split; [apply (inv_bt s Hinv)|]. intros k q Hk. apply (inv_p s Hinv) in Hk.
    destruct Hk as [_ Hk]. destruct q; cbn in *; tauto.
  - intros s1 Hs1. unfold now. cbn [fst snd]. split; [right; exact Hs1|].
    destruct (Hclk (w_clk (p_w s1))) as [ts ->]. apply body_quiet. exact Hi.
Qed.
End drive.

(** *** a new counter name aborts the flush *)
Section abort.
Context `{NN : Num} (E : env) (plugins : list factory).
Notation C := (mp_cls E plugins).
Notation receive_all := (receive_all E plugins).
Notation Drive := (drive E plugins).

Section phase.
Context (seconds ts : Z) (Hsec : seconds <> 0) (size0 : nat) (k : Z -> gen mst).
Notation u := (fun s' : mst => (size (p_counter s') =? size0)%nat).
Definition cvisit (key : str) (s' : mst) : mst * res (option (list dp * M mst unit)) :=
  match p_counter s' !! key with
  | Some v => (fun key count s => let s' := set_counter (<[key := n0]> (p_counter s)) s in
      if seconds =? 0 then (s', Exn ZeroDivisionError)
      else (s', Ok (Some ([DP (stats_prefix ++ key) (VF (ndiv count (nofZ seconds))) ts;
                           DP (count_prefix ++ key) (VF count) ts], no_post)))) key v s'
  | None => (s', Ok None)
  end.
Lemma cvisit_ok key s v : p_counter s !! key = Some v ->
  cvisit key s = (set_counter (<[key := n0]> (p_counter s)) s,
    Ok (Some ([DP (stats_prefix ++ key) (VF (ndiv v (nofZ seconds))) ts; DP (count_prefix ++ key) (VF v) ts], no_post))).
Proof using Hsec. intros Hv. unfold cvisit. rewrite Hv. destruct (seconds =? 0) eqn:Ez; [clear - Hsec Ez; lia|reflexivity]. Qed.
(** suspended in the counter loop with [r] items of the current counter to go and the names [ks] to visit *)
Definition in_loop (r : nat) (ks : list str) (g : gen mst) : Prop :=
  exists ms n, length ms = r /\ g = GEmit ms (GAct (fun s2 => match no_post s2 with
    | (s3, Ok _) => (s3, giter ks u cvisit (n + 1) k)
    | (s3, Exn e) => (s3, GRaise e) end)).
Lemma in_loop_yield r ks g s : in_loop (S r) ks g -> exists d g', gnext g s = (s, Yielded d g') /\ in_loop r ks g'.
Proof.
  intros (ms & n & Hl & ->). destruct ms as [|d ms]; [discriminate|]. injection Hl as Hl.
  eexists d, _. split; [reflexivity|]. exists ms, n. auto.
Qed.
Lemma in_loop_changed ks g s : in_loop 0 ks g -> size (p_counter s) <> size0 -> gnext g s = (s, Raised RuntimeError).
Proof.
  intros (ms & n & Hl & ->) Hs. destruct ms; [|discriminate]. cbn [gnext no_post].
  destruct ks as [|key ks]; cbn [giter gnext]; rewrite (proj2 (Nat.eqb_neq _ _) Hs); reflexivity.
Qed.
Lemma start_loop key ks n s : size (p_counter s) = size0 -> is_Some (p_counter s !! key) ->
  exists d g', gnext (giter (key :: ks) u cvisit n k) s =
    (set_counter (<[key := n0]> (p_counter s)) s, Yielded d g') /\ in_loop 1 ks g'.
Proof using Hsec.
  intros Hs [v Hv]. cbn [giter gnext]. rewrite (proj2 (Nat.eqb_eq _ _) Hs). cbn [negb].
  rewrite (cvisit_ok key s v Hv). cbn [gnext]. eexists _, _. split; [reflexivity|].
  eexists [_], n. split; reflexivity.
Qed.
End phase.

(** number of items emitted and what is left, while in the loop *)
Lemma drive_in_loop seconds ts size0 k : seconds <> 0 -> forall bs r ks g s s1 out g1,
  in_loop seconds ts size0 k r ks g -> NoDup ks -> (forall key, key ∈ ks -> is_Some (p_counter s !! key)) ->
  (length bs <= 2 * length ks + r)%nat -> (r <= 1)%nat ->
  Drive g s bs = (s1, out, Running g1) ->
  exists r1 ks1, in_loop seconds ts size0 k r1 ks1 g1 /\ (r1 <= 1)%nat /\
    (length out + r1 + 2 * length ks1 = r + 2 * length ks)%nat.
Proof.
  intros Hsec. induction bs as [|b bs IH]; intros r ks g s s1 out g1 Hg Hnd Hks Hlen Hr Hd; cbn [drive] in Hd.
  - injection Hd as <- <- <-. exists r, ks. cbn. auto.
  - assert (Hkb : forall key, key ∈ ks -> is_Some (p_counter (receive_all b s) !! key)).
    { intros key Hk. specialize (Hks key Hk). clear -Hks. revert s Hks. induction b as [|m b IH]; intros s Hks; [exact Hks|].
      rewrite receive_all_cons. apply IH. rewrite counter_step. destruct (counter_view m key) as [[v r]|]; [|exact Hks].
      destruct Hks as [x Hx]. unfold counter_add. rewrite Hx. destruct (rate_of r) as [y|]; [destruct (neqb y n0)|]; cbn [fst];
        rewrite ?lookup_insert, ?Hx; eauto. }
    set (sb := receive_all b s) in *. destruct r as [|r].
    + destruct (decide (size (p_counter sb) = size0)) as [Hs|Hs].
      2:{ rewrite (in_loop_changed _ _ _ _ _ _ _ Hg Hs) in Hd. discriminate. }
      destruct ks as [|key ks]; [cbn in Hlen; lia|].
      destruct Hg as (ms & n & Hl & ->). destruct ms; [|discriminate]. cbn [gnext no_post] in Hd.
      assert (Hst := start_loop seconds ts Hsec size0 k key ks (n + 1) sb Hs (Hkb key ltac:(apply elem_of_cons; auto))).
      destruct Hst as (d & g' & Hg' & Hin). set (s' := set_counter (<[key := n0]> (p_counter sb)) sb) in *.
      rewrite Hg' in Hd. destruct (Drive g' s' bs) as [[s2 l] pr] eqn:Ed. injection Hd as -> <- ->.
      inversion Hnd as [|? ? Hn1 Hn2]; subst.
      destruct (IH 1%nat ks g' s' s1 l g1 Hin Hn2) as (r1 & ks1 & H1 & H2 & H3).
      * intros key' Hk'. cbn. destruct (decide (key = key')) as [->|Hne]; [contradiction|].
        rewrite lookup_insert_ne by auto. apply Hkb. apply elem_of_cons. auto.
      * cbn in Hlen. lia.
      * lia.
      * exact Ed.
      * exists r1, ks1. cbn [length] in *. split; [exact H1|]. lia.
    + destruct (in_loop_yield _ _ _ _ _ _ _ sb Hg) as (d & g' & Hg' & Hin). rewrite Hg' in Hd.
      destruct (Drive g' sb bs) as [[s2 l] pr] eqn:Ed. injection Hd as -> <- ->.
      destruct (IH r ks g' sb s1 l g1 Hin Hnd Hkb) as (r1 & ks1 & H1 & H2 & H3); [cbn in Hlen; lia|lia|exact Ed|].
      exists r1, ks1. cbn [length]. split; [exact H1|]. lia.
Qed.

Lemma new_counter_aborts i p (s s1 : mst) b0 bs out g n : 1000 <= i ->
  n = size (p_counter (receive_all b0 s)) ->
  Drive (flush E C i p) s (b0 :: bs) = (s1, out, Running g) -> (length (b0 :: bs) <= 2 * n)%nat ->
  length out = length (b0 :: bs) /\
  forall b, let s2 := receive_all b s1 in size (p_counter s2) <> n ->
    if Nat.even (length out)
    then gnext g s2 = (s2, Raised RuntimeError)
    else exists d g', gnext g s2 = (s2, Yielded d g') /\
      forall b', let s3 := receive_all b' s2 in size (p_counter s3) <> n -> gnext g' s3 = (s3, Raised RuntimeError).
Proof.
  intros Hi -> Hd Hlen.
  assert (Hout : forall bs g s s1 out g1, Drive g s bs = (s1, out, Running g1) -> length out = length bs).
  { clear. induction bs as [|b bs IH]; intros g s s1 out g1 H; cbn [drive] in H; [injection H as <- <- <-; reflexivity|].
    destruct (gnext g (receive_all b s)) as [s' [d g'| |e]]; try discriminate.
    destruct (Drive g' s' bs) as [[s2 l] r] eqn:Ed. injection H as -> <- ->. cbn. f_equal. eapply IH. exact Ed. }
  pose proof (Hout _ _ _ _ _ _ Hd) as Hol. split; [exact Hol|].
  cbn [drive] in Hd. set (sb := receive_all b0 s) in *.
  set (n0' := size (p_counter sb)) in *.
  assert (Hz : i / 1000 <> 0).
  { pose proof (Z.div_mod i 1000 ltac:(lia)). pose proof (Z.mod_pos_bound i 1000 ltac:(lia)). lia. }
  unfold flush at 1 in Hd. cbn [gnext] in Hd. unfold now in Hd.
  destruct (ntrunc (e_clock E (w_clk (p_w sb)))) as [ts|e]; [|discriminate].
  unfold timed at 1 in Hd. cbn [gnext] in Hd. unfold now in Hd.
  cbn [c_flush_counter mp_cls] in Hd. unfold mp_flush_counter at 1, gdict at 1 in Hd. cbn [gnext p_w set_w p_counter] in Hd.
  match type of Hd with context [dict_keys E (p_counter sb) ?w] =>
    pose proof (FlushRun.keys_perm E (p_counter sb) w) as Hp; pose proof (FlushRun.keys_nodup E (p_counter sb) w) as Hn;
    pose proof (FlushRun.keys_in E (p_counter sb) w) as Hki;
    destruct (dict_keys E (p_counter sb) w) as [ks w'] end. cbn [fst] in Hp, Hn, Hki.
  assert (Hkl : length ks = n0').
  { rewrite Hp, fmap_length. reflexivity. }
  destruct ks as [|key ks]; [cbn in Hkl; cbn [length] in Hlen; lia|].
  match type of Hd with context [@gnext ?N ?T ?G ?st] =>
    match G with @giter _ _ _ _ _ _ _ ?kk =>
    destruct (@gnext N T G st) as [sx ox] eqn:Eg; pose (s' := st); pose (k := kk) end end.
  destruct (start_loop (i / 1000) ts Hz n0' k key ks 0 s' eq_refl) as (d & g' & Hg' & Hin).
  { apply (Hki key). apply elem_of_cons. auto. }
  assert (Hx : (sx, ox) = (set_counter (<[key := n0]> (p_counter s')) s', Yielded d g')) by exact (eq_trans (eq_sym Eg) Hg').
  injection Hx as -> ->. clear Eg Hg'.
  match type of Hd with context [drive E plugins ?G ?S ?BS] => destruct (drive E plugins G S BS) as [[s2 l] pr] eqn:Ed end. injection Hd as -> <- ->.
  inversion Hn as [|? ? Hn1 Hn2]; subst x l0.
  destruct (drive_in_loop (i / 1000) ts n0' k Hz bs 1 ks g' (set_counter (<[key := n0]> (p_counter s')) s') s1 l g Hin Hn2) as (r1 & ks1 & H1 & H2 & H3).
  - intros key' Hk'. cbn. destruct (decide (key = key')) as [->|Hne]; [contradiction|].
    rewrite lookup_insert_ne by auto. apply (Hki key'). apply elem_of_cons. auto.
  - cbn [length] in *. lia.
  - lia.
  - exact Ed.
  - intros b s2 Hs2. cbn [length] in *. destruct r1 as [|[|r1]]; [| |lia].
    + assert (Hev : Nat.even (S (length l)) = true).
      { replace (S (length l)) with (2 * (1 + length ks - length ks1))%nat by lia. rewrite Nat.even_mul. reflexivity. }
      rewrite Hev. exact (in_loop_changed _ _ _ _ _ _ _ H1 Hs2).
    + assert (Hev : Nat.even (S (length l)) = false).
      { replace (S (length l)) with (1 + 2 * (length ks - length ks1))%nat by lia. rewrite Nat.even_add_mul_2. reflexivity. }
      rewrite Hev. destruct (in_loop_yield _ _ _ _ _ _ _ s2 H1) as (d1 & g1 & Hg1 & Hin1).
      exists d1, g1. split; [exact Hg1|]. intros b' Hs3. exact (in_loop_changed _ _ _ _ _ _ _ Hin1 Hs3).
Qed.
End abort.
