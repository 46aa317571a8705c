(** Whole counts in binary64 through the whole daemon and the service of a command line; what
    the texts of whole numbers are worth. *)
From Verif Require Import Base StrFacts Num NumFacts Env Stats Glob Metrics Gen GenFacts Processor
  LineSpec LineFacts FloatFacts ProcFacts ProcSpec ReceiveFacts ReceiveFacts2 ReceiveFacts3 PlugFacts
  Sched FlushInv FlushOk SchedFacts BlockFacts B64 WholeFacts DoubleFacts
  Client RouterSpec Router RouterFacts RouterProps Server ServerSpec ServerFacts Service ServiceSpec ServiceFacts
  ClientMetrics Daemon DaemonFacts Own OwnSpec OwnFacts Assembly AssemblySpec AssemblyFacts Entire.
From Coq Require Import Floats.SpecFloat.
Open Scope Z_scope.

(** ** What [worth] means *)
(** [x] is the number [z] times 2^[u] (both sides brought to the smaller exponent) *)
Definition is_value (x : @Num.num B64) (z u : Z) : Prop :=
  match (x : f64) with
  | S754_zero _ => z = 0
  | S754_finite s m e => (if s then - Zpos m else Zpos m) * 2 ^ (e - Z.min e u) = z * 2 ^ (u - Z.min e u)
  | _ => False
  end.
Lemma worth_value u x z : -1000 <= u <= 900 -> worth u x z -> Z.abs z <= 2 ^ 53 /\ is_value x z u.
Proof.
  intros Hu [Hz H]. split; [exact Hz|]. destruct (Z.eq_dec z 0) as [->|Hn].
  - destruct H as [->|[_ ->]]; reflexivity.
  - destruct (units_finite u z x H Hz Hu Hn) as (m & e & _ & Hx & Hv). rewrite Hx. unfold is_value.
    pose proof (units_value (Z.abs z) u m e (Z.min e u) ltac:(lia) ltac:(lia) ltac:(lia) Hv) as E.
    destruct (Z.ltb_spec z 0).
    + rewrite Z.mul_opp_l, E, <- Z.mul_opp_l. f_equal. lia.
    + rewrite E. f_equal. lia.
Qed.

(** ** Lines with whole numbers *)
Lemma whole_literal neg m : 0 <= m <= 2 ^ 53 -> worth 0 (nlit (Num := B64) (FDec neg m 0)) (LineSpec.signed neg m).
Proof.
  intros H. split; [destruct neg; unfold in_range, LineSpec.signed; lia|]. cbn [nlit B64]. unfold f_lit. change (0 <=? 0) with true. cbv iota. change (10 ^ 0) with 1. rewrite Z.mul_1_r.
  exact (frat_int neg m H).
Qed.
Lemma one_over_one : ndiv (Num := B64) n1 n1 = n1.
Proof. vm_compute. reflexivity. Qed.
Lemma whole_line line key f0 neg m : typed_line line (B "c") key [f0; B "c"] -> float_text f0 (FDec neg m 0) ->
  0 <= m <= 2 ^ 53 -> exists a, counter_amount (NN := B64) key line a /\ worth 0 a (LineSpec.signed neg m).
Proof.
  intros Ht Hf Hm. exists (nmul (Num := B64) (nlit (Num := B64) (FDec neg m 0)) (ndiv (Num := B64) n1 n1)). split.
  - exists (nlit (Num := B64) (FDec neg m 0)), (n1 (NN := B64)). split; [|reflexivity].
    eapply cs_plain; [exact Ht|]. exists (FDec neg m 0). auto.
  - rewrite one_over_one. split; [destruct neg; unfold in_range, LineSpec.signed; lia|]. apply units_mul_one; [lia|destruct neg; unfold in_range, LineSpec.signed; lia|apply whole_literal, Hm].
Qed.

#[local] Existing Instance B64.
Section counter.
Context (u : Z) (Hu : -1000 <= u <= 900) (E : env) (plugins : list (factory (NN := B64))).
Lemma picks_unique {A} (P : str -> A -> Prop) (HP : forall m a b, P m a -> P m b -> a = b) ms : forall l l', picks P ms l -> picks P ms l' -> l = l'.
Proof.
  intros l l' H. revert l'. induction H as [|m a ms l Ha _ IH|m ms l Hn _ IH]; intros k Hk; inversion Hk as [|? b ? k' Hb Hk'|? ? ? Hb Hk']; subst.
  - reflexivity.
  - f_equal; [eapply HP; eassumption|auto].
  - destruct (Hb a Ha).
  - destruct (Hn b Hb).
  - auto.
Qed.
Lemma amounts_exist key ms : exists l, picks (counter_amount (NN := B64) key) ms l.
Proof using E plugins. destruct (counter_history E plugins ms mp_init key) as (l & Hl & _). eauto. Qed.
Lemma zsize_perm l k : l ≡ₚ k -> zsize l = zsize k.
Proof. intros H. unfold zsize. apply zsum_perm. rewrite H. reflexivity. Qed.
(** the value of a counter after any lines *)
Lemma counter_whole key ms accepted zs : picks (counter_amount (NN := B64) key) ms accepted -> Forall2 (worth u) accepted zs ->
  zsize zs <= 2 ^ 53 ->
  worth u (default n0 (p_counter (receive_all E plugins ms mp_init) !! key)) (zsum zs).
Proof using Hu.
  intros Hp Hz Hs. destruct (counter_history E plugins ms mp_init key) as (l & Hl & H).
  assert (l = accepted) as -> by (exact (picks_unique _ (fun m a b => counter_amount_fun m key a b) ms l accepted Hl Hp)).
  destruct H as [(H1 & H2 & H3 & H4)|(H1 & H2)].
  - rewrite H4. assert (accepted = []) as ->.
    { clear -Hp H2. induction Hp as [|m a ms l Ha _ IH|m ms l Hn _ IH]; [reflexivity| |apply IH; intros; apply H2; right; assumption].
      destruct (H2 m (or_introl eq_refl)). destruct Ha as (v & r & Hc & _). destruct Hc; econstructor; eassumption. }
    inversion Hz; subst. exact (worth_zero u).
  - rewrite H2. change (default n0 (p_counter (mp_init (NN := B64)) !! key)) with (n0 (NN := B64)).
    split; [unfold in_range; pose proof (zsize_bound zs); lia|]. exact (running_exact u Hu accepted zs Hz Hs).
Qed.

Context (G : engine) (interval percent : Z) (cfg : mon) (max : nat) (refuses : nat -> dp (NN := B64) -> option exn).
Context (config : str) (ls : list lspec) (rs : list (rule G)) (rws : list rule_text) (links : list rlink).
Context (Hb : build_rules G true config [] = (ls, Ok rs)) (Hr : rules_of config rws) (Hl : length links = length ls).
Context (Hi : 1000 <= interval).
Notation C := (mp_cls E plugins).
Notation run := (drun (S := mst) G (process_message E C) (flush E C interval percent) rs cfg max false refuses).
Notation outgoing d := (map (fun c => snd (fst c)) (d_calls d)).

Lemma daemon_whole addrs es out key accepted zs :
  arrivals max (map (fun a => (a, [])) addrs) (nets es) out ->
  Forall (unmatched rws) (metrics_in cfg out ++ own es) ->
  picks (counter_amount (NN := B64) key) (metrics_in cfg out ++ own es) accepted -> Forall2 (worth u) accepted zs -> zsize zs <= 2 ^ 53 ->
  let d := run (d_new addrs links mp_init) es in
  exists scheduled sent flushing unheard stored,
    picks (counter_amount (NN := B64) key) (v_pending (d_srv d)) scheduled /\ Forall2 (worth u) scheduled unheard /\
    Forall2 (worth u) (values_in key (outgoing d)) sent /\
    Forall2 (worth u) (values_in key (flat_map pending (map snd (d_live d) ++ d_gone d))) flushing /\
    worth u (default n0 (p_counter (d_proc d) !! key)) stored /\
    zsum sent + zsum flushing + stored + zsum unheard = zsum zs.
Proof using Hb Hi Hl Hr Hu.
  intros Ha Hun Hp Hz Hsz d.
  destruct (daemon_network G (process_message E C) (flush E C interval percent) rs cfg max refuses addrs links mp_init es out Ha) as [_ Hper].
  cbv zeta in Hper. change (drun G _ _ rs cfg max false refuses _ es) with d in Hper.
  destruct (daemon_refines E plugins G interval percent cfg max false refuses config ls rs rws Hb Hr addrs links es Hl) as (y & tss & evs & Hs).
  { intros m Hin. apply skipped. rewrite Forall_forall in Hun. apply Hun, elem_of_list_In. rewrite <- Hper. apply in_or_app. left. exact Hin. }
  fold d in Hs. destruct Hs as [H1 H2 H3 H4 H5 H6 H7 H8 H9].
  destruct (amounts_exist key (lines evs)) as (handled & Hh). destruct (amounts_exist key (v_pending (d_srv d))) as (sch & Hsch).
  assert (Hall : handled ++ sch ≡ₚ accepted).
  { eapply picks_perm; [intros m0 a0 b0; apply counter_amount_fun|exact Hper| |exact Hp]. apply picks_join; [|exact Hsch].
    rewrite H8 in Hh. apply (skipped_all G rws (fun v r => nmul (Num := B64) v (ndiv (Num := B64) n1 r)) key (d_order d) tss); [|exact H9|exact Hh].
    rewrite <- Hper in Hun. apply Forall_app in Hun as [Hun _]. exact Hun. }
  symmetry in Hall. destruct (Permutation_Forall2 Hall Hz) as (z2 & P1 & P2).
  apply Forall2_app_inv_l in P2 as (zh & zu & Q1 & Q2 & ->). rewrite (zsize_perm _ _ P1), zsize_app in Hsz.
  assert (0 <= zsize zu) by (pose proof (zsize_bound zu); lia).
  destruct (whole_counts u Hu E plugins key evs handled zh (H7 Hi) Hh Q1 ltac:(lia)) as (sn & wt & st & W1 & W2 & W3 & W4).
  cbv zeta in *. rewrite <- H6 in W1, W2, W3.
  exists sch, sn, wt, zu, st. rewrite H2, H3, H1, H4. split; [exact Hsch|]. split; [exact Q2|]. split; [exact W1|]. split; [exact W2|]. split; [exact W3|].
  rewrite (zsum_perm _ _ P1), zsum_app. lia.
Qed.
End counter.


Lemma service_whole u (Hu : -1000 <= u <= 900) E plugins G files args node a is_ip max closes refuses CE addrs h out key :
  well_formed files -> described G files args node a -> value_of files args (B "routing") (OS []) -> 1000 <= a_flush _ a ->
  addrs = [] \/ closes = false ->
  arrivals max (map (fun a => (a, [])) addrs) (heard (NN := B64) h) out ->
  let C := mp_cls E plugins in
  let d := o_daemon (service_run (NN := B64) (S := mst) G (process_message E C) (flush E C) mp_init a max closes refuses CE is_ip addrs h) in
  exists es, written CE (a_instance _ a) h es /\
    forall accepted zs,
      picks (counter_amount (NN := B64) key) (metrics_in (a_mon _ a) out ++ own es) accepted -> Forall2 (worth u) accepted zs -> zsize zs <= 2 ^ 53 ->
      exists scheduled sent flushing unheard stored,
        picks (counter_amount (NN := B64) key) (v_pending (d_srv d)) scheduled /\ Forall2 (worth u) scheduled unheard /\
        Forall2 (worth u) (values_in key (map (fun c => snd (fst c)) (d_calls d))) sent /\
        Forall2 (worth u) (values_in key (flat_map pending (map snd (d_live d) ++ d_gone d))) flushing /\
        worth u (default n0 (p_counter (d_proc d) !! key)) stored /\
        zsum sent + zsum flushing + stored + zsum unheard = zsum zs.
Proof.
  intros Hw D Hro Hi Hc Ha C d. destruct (ds_routing _ _ _ _ _ D) as (text & Ht & Hb).
  assert (text = []) as ->. { pose proof (value_fun files args Hw _ _ _ Hro Ht). congruence. }
  destruct (written_history G (process_message E C) (flush E C (a_flush _ a) 90) (a_rules _ a) (a_mon _ a) max closes refuses CE (a_ext _ a) (a_instance _ a)
    (d_new addrs (service_links G is_ip a) mp_init) h) as (es & Hes & Hd).
  assert (Hd' : d = drun (S := mst) G (process_message E C) (flush E C (a_flush _ a) 90) (a_rules _ a) (a_mon _ a) max false refuses
    (d_new addrs (service_links G is_ip a) mp_init) es).
  { refine (eq_trans Hd _). destruct Hc as [->| ->]; [|reflexivity]. apply udp_run. reflexivity. }
  rewrite <- (written_nets _ _ _ _ Hes) in Ha.
  exists es. split; [exact Hes|]. intros accepted zs Hp Hz Hsz. rewrite Hd'.
  apply (daemon_whole u Hu E plugins G (a_flush _ a) 90 (a_mon _ a) max refuses [] (a_links _ a) (a_rules _ a) [] (service_links G is_ip a)
    Hb ltac:(apply rules_by; reflexivity) ltac:(apply map_length) Hi addrs es out key accepted zs Ha); try assumption.
  apply Forall_forall. intros m _ t k fs _. constructor.
Qed.
