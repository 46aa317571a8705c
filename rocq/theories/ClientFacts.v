(** The queueing UDP client refines a queue with two switches. *)
From Verif Require Import Base Client.
Local Arguments Nat.ltb : simpl never.

(** ** Specification: what a caller may rely on.
    Writes go out once the host is known and a transport is there; until then at
    most [limit] of them wait. *)
Record aline := AL {
  a_resolved : bool; a_connected : bool;
  a_gone : list item;          (* passed to the reactor, in order *)
  a_waiting : list item }.
Definition a_init (resolved : bool) : aline := AL resolved false [] [].
Definition release (a : aline) : aline :=
  if a_resolved a && a_connected a
  then AL (a_resolved a) (a_connected a) (a_gone a ++ a_waiting a) []
  else a.
Definition a_step (limit : nat) (a : aline) (e : uevent) : aline :=
  match e with
  | EWrite it =>
      if a_resolved a && a_connected a then AL true true (a_gone a ++ [it]) (a_waiting a)
      else if (length (a_waiting a) <? limit)%nat
           then AL (a_resolved a) (a_connected a) (a_gone a) (a_waiting a ++ [it])
           else a                                            (* discarded *)
  | EResolved _ => release (AL true (a_connected a) (a_gone a) (a_waiting a))
  | EConnect (Some _) => release (AL (a_resolved a) true (a_gone a) (a_waiting a))
  | EConnect None => release a
  | EDisconnect => AL (a_resolved a) false (a_gone a) (a_waiting a)
  | ETurn => a
  end.
Definition a_run (limit : nat) (evs : list uevent) (a : aline) : aline := fold_left (a_step limit) evs a.

Definition writes (evs : list uevent) : list item :=
  flat_map (fun e => match e with EWrite it => [it] | _ => [] end) evs.
Definition resolutions (evs : list uevent) : list str :=
  flat_map (fun e => match e with EResolved ip => [ip] | _ => [] end) evs.
Definition connections (evs : list uevent) : list nat :=
  flat_map (fun e => match e with EConnect (Some t) => [t] | _ => [] end) evs.

(** the connect callback, if any, neither writes nor raises; the disconnect
    callback, if any, does not raise *)
Definition quiet (cfg : ucfg) : Prop :=
  (forall c n, uc_connect cfg = Some c -> cc_writes c n = [] /\ cc_raises c n = None) /\
  (forall f n, uc_disconnect cfg = Some f -> f n = None).

(** ** Refinement *)
Definition passed (s : uclient) : list item := map snd (u_sent s) ++ map snd (u_sched s).
Definition some_b {A} (o : option A) : bool := match o with Some _ => true | None => false end.

Record refines (limit : nat) (hosts : list str) (ts : list nat) (s : uclient) (a : aline) : Prop := Ref {
  rf_res : a_resolved a = some_b (u_gateway s);
  rf_con : a_connected a = some_b (u_transport s);
  rf_gone : passed s = a_gone a;
  rf_wait : u_queue s = a_waiting a;
  rf_bound : (length (a_waiting a) <= limit)%nat;
  rf_empty : a_resolved a && a_connected a = true -> a_waiting a = [];
  rf_gw : forall g, u_gateway s = Some g -> exists gw, u_gateways s !! g = Some gw /\
          (forall t, u_transport s = Some t -> g_transport gw = Some t);
  rf_sched : forall g it, In (g, it) (u_sched s) -> exists gw t, u_gateways s !! g = Some gw /\ g_transport gw = Some t;
  rf_hosts : forall gw, In gw (u_gateways s) -> In (g_host gw) hosts /\
             (forall t, g_transport gw = Some t -> In t ts);
  rf_trans : forall t, u_transport s = Some t -> In t ts;
  rf_sent : forall t h it, In (t, h, it) (u_sent s) -> In h hosts /\ In t ts }.

(** flushing the queue *)
Lemma flush_ready cfg s g t q :
  u_gateway s = Some g -> u_transport s = Some t ->
  fold_left (fun s it => uc_write cfg it s) q s = uset_sched (u_sched s ++ map (fun it => (g, it)) q) s.
Proof.
  intros Hg Ht. revert s Hg Ht. induction q as [|it q IH]; intros s Hg Ht; cbn [fold_left map].
  - rewrite app_nil_r. destruct s; reflexivity.
  - unfold uc_write at 2. rewrite Hg, Ht, IH; try assumption. destruct s; cbn. rewrite <- app_assoc. reflexivity.
Qed.
Lemma flush_waiting cfg s q :
  (some_b (u_gateway s) && some_b (u_transport s) = false)%bool ->
  (length (u_queue s) + length q <= uc_limit cfg)%nat ->
  fold_left (fun s it => uc_write cfg it s) q s = uset_queue (u_queue s ++ q) s.
Proof.
  revert s. induction q as [|it q IH]; intros s Hr Hl; cbn [fold_left].
  - rewrite app_nil_r. destruct s; reflexivity.
  - assert (Hw : uc_write cfg it s = uset_queue (u_queue s ++ [it]) s).
    { unfold uc_write, queue_write. cbn [length] in Hl.
      assert ((length (u_queue s) <? uc_limit cfg)%nat = true) as -> by (apply Nat.ltb_lt; lia).
      destruct (u_gateway s), (u_transport s); cbn in Hr; try reflexivity. discriminate. }
    rewrite Hw, IH.
    + destruct s; cbn. rewrite <- app_assoc. reflexivity.
    + destruct s; exact Hr.
    + destruct s; cbn in *. rewrite app_length. cbn. lia.
Qed.

Lemma passed_sched s l g : passed (uset_sched (u_sched s ++ map (fun it => (g, it)) l) s) = passed s ++ l.
Proof.
  unfold passed. destruct s; cbn. rewrite map_app, map_map. cbn. rewrite map_id, app_assoc. reflexivity.
Qed.

Lemma refines_flush cfg hosts ts s a :
  refines (uc_limit cfg) hosts ts s (AL (a_resolved a) (a_connected a) (a_gone a) []) ->
  u_queue s = [] ->
  (length (a_waiting a) <= uc_limit cfg)%nat ->
  refines (uc_limit cfg) hosts ts (fold_left (fun s it => uc_write cfg it s) (a_waiting a) s) (release a).
Proof.
  intros R Hq Hl. destruct R as [r1 r2 r3 r4 r5 r6 r7 r8 r9 r10 r11]. cbn in *.
  unfold release. destruct (a_resolved a && a_connected a) eqn:Er.
  - rewrite r1, r2 in Er. destruct (u_gateway s) as [g|] eqn:Eg, (u_transport s) as [t|] eqn:Et; try discriminate.
    rewrite (flush_ready cfg s g t) by assumption.
    split; cbn; try assumption.
    + rewrite r1, Eg. reflexivity.
    + rewrite r2, Et. reflexivity.
    + etransitivity; [apply (passed_sched s (a_waiting a) g)|]. rewrite r3. reflexivity.
    + reflexivity.
    + rewrite Eg, Et. exact r7.
    + intros g' it Hin. apply in_app_or in Hin as [Hin|Hin]; [apply (r8 _ _ Hin)|].
      apply in_map_iff in Hin as (x & [= <- <-] & _).
      destruct (r7 g eq_refl) as (gw & Hgw & Htr). exists gw, t. split; [assumption|]. apply Htr. reflexivity.
    + rewrite Et. exact r10.
  - rewrite flush_waiting.
    + rewrite Hq. cbn [app]. split; cbn; try assumption.
      * reflexivity.
      * intros Hx. rewrite Er in Hx. discriminate.
    + rewrite <- r1, <- r2. exact Er.
    + rewrite Hq. exact Hl.
Qed.

Lemma refines_weaken limit hosts hosts' ts ts' s a :
  (forall x, In x hosts -> In x hosts') -> (forall x, In x ts -> In x ts') ->
  refines limit hosts ts s a -> refines limit hosts' ts' s a.
Proof.
  intros Hh Ht [r1 r2 r3 r4 r5 r6 r7 r8 r9 r10 r11]. split; auto.
  - intros gw Hin. destruct (r9 gw Hin) as [H1 H2]. eauto.
  - intros t h it Hin. destruct (r11 _ _ _ Hin) as [H1 H2]. auto.
Qed.

Definition turned (s s' : uclient) : Prop :=
  u_transport s' = u_transport s /\ u_gateways s' = u_gateways s /\ u_gateway s' = u_gateway s /\
  u_queue s' = u_queue s /\ u_sched s' = u_sched s.
Lemma call_back_turned N cb v s : turned s (fst (call_back N cb v s)) /\ u_sent (fst (call_back N cb v s)) = u_sent s.
Proof.
  unfold call_back, turned. destruct cb; cbn; [destruct (n_cb _ _); cbn|]; auto 10.
Qed.
Lemma gateway_write_state N g t it s :
  g_transport g = Some t ->
  turned s (fst (gateway_write N g it s)) /\
  u_sent (fst (gateway_write N g it s)) = u_sent s ++ [(t, g_host g, it)].
Proof.
  intros Ht. unfold gateway_write, try_caught, bnd. rewrite Ht.
  set (s1 := uadd_sent (t, g_host g, it) s).
  assert (H1 : turned s s1 /\ u_sent s1 = u_sent s ++ [(t, g_host g, it)]) by (split; [unfold turned; auto 10|reflexivity]).
  assert (Hc : forall cb v s', turned s s' /\ u_sent s' = u_sent s ++ [(t, g_host g, it)] ->
    turned s (fst (call_back N cb v s')) /\ u_sent (fst (call_back N cb v s')) = u_sent s ++ [(t, g_host g, it)]).
  { intros cb v s' [(A1 & A2 & A3 & A4 & A5) A6]. destruct (call_back_turned N cb v s') as [(B1 & B2 & B3 & B4 & B5) B6].
    split; [|congruence]. unfold turned. repeat split; congruence. }
  destruct (n_send N (length (u_sent s))) as [b|e].
  - pose proof (Hc (snd it) (Some b) s1 H1) as H2.
    destruct (call_back N (snd it) (Some b) s1) as [s2 [[]|e]]; cbn [fst] in *; [exact H2|].
    destruct (caught e); [apply Hc, H2|exact H2].
  - destruct (caught e); [apply Hc, H1|exact H1].
Qed.

Lemma turn_state N limit hosts ts s a : refines limit hosts ts s a ->
  refines limit hosts ts (fst (turn N s)) a.
Proof.
  intros R. unfold turn. destruct (u_sched s) as [|[g it] rest] eqn:Es; [exact R|].
  destruct R as [r1 r2 r3 r4 r5 r6 r7 r8 r9 r10 r11].
  destruct (r8 g it) as (gw & t & Hgw & Ht); [rewrite Es; left; reflexivity|]. rewrite Hgw.
  destruct (gateway_write_state N gw t it (uset_sched rest s) Ht) as [(A1 & A2 & A3 & A4 & A5) A6].
  destruct (gateway_write N gw it (uset_sched rest s)) as [s' r]. cbn [fst] in *.
  destruct s as [x1 x2 x3 x4 x5 x6 x7 x8 x9], s' as [y1 y2 y3 y4 y5 y6 y7 y8 y9].
  unfold passed, uset_sched in *. cbn in *. subst.
  assert (Hin : In gw x2) by (apply elem_of_list_In, elem_of_list_lookup; eauto).
  split; cbn; try assumption.
  - unfold passed. cbn. rewrite map_app. cbn. rewrite <- app_assoc. exact r3.
  - reflexivity.
  - intros g' it' H. apply (r8 g' it'). right. exact H.
  - intros t' h' it' H. apply in_app_or in H as [H|[[= <- <- <-]|[]]]; [exact (r11 _ _ _ H)|].
    destruct (r9 gw Hin) as [H1 H2]. split; [exact H1|]. apply H2, Ht.
Qed.

Lemma step_refines N cfg hosts ts s a e (Q : quiet cfg) :
  refines (uc_limit cfg) hosts ts s a ->
  refines (uc_limit cfg) (hosts ++ resolutions [e]) (ts ++ connections [e])
    (fst (ustep N cfg e s)) (a_step (uc_limit cfg) a e).
Proof.
  intros R.
  destruct e as [it|ip|t| |]; cbn [ustep a_step].
  - (* write *)
    cbn [resolutions connections flat_map]. rewrite !app_nil_r. destruct R as [r1 r2 r3 r4 r5 r6 r7 r8 r9 r10 r11]. unfold uc_write, mod_. cbn [fst].
    destruct (a_resolved a && a_connected a) eqn:Er.
    + rewrite r1, r2 in Er. destruct (u_gateway s) as [g|] eqn:Eg, (u_transport s) as [t|] eqn:Et; try discriminate.
      change [(g, it)] with (map (fun it => (g, it)) [it]).
      split; cbn; try assumption.
      * rewrite Eg. reflexivity.
      * rewrite Et. reflexivity.
      * etransitivity; [apply (passed_sched s [it] g)|]. rewrite r3. reflexivity.
      * rewrite Eg, Et. exact r7.
      * intros g' it' Hin. apply in_app_or in Hin as [Hin|[[= <- <-]|[]]]; [apply (r8 _ _ Hin)|].
        destruct (r7 g eq_refl) as (gw & Hgw & Htr). exists gw, t. split; [assumption|]. apply Htr. reflexivity.
      * rewrite Et. exact r10.
    + assert (Hs : (match u_gateway s with Some g => match u_transport s with Some _ => uset_sched (u_sched s ++ [(g, it)]) s
                     | None => uset_queue (queue_write (uc_limit cfg) it (u_queue s)) s end
                     | None => uset_queue (queue_write (uc_limit cfg) it (u_queue s)) s end)
                   = uset_queue (queue_write (uc_limit cfg) it (u_queue s)) s).
      { rewrite r1, r2 in Er. destruct (u_gateway s), (u_transport s); try reflexivity. discriminate. }
      rewrite Hs. unfold queue_write. rewrite r4. destruct (length (a_waiting a) <? uc_limit cfg)%nat eqn:El.
      * apply Nat.ltb_lt in El. split; cbn; try assumption.
        -- reflexivity.
        -- rewrite app_length. cbn. lia.
        -- rewrite Er. discriminate.
      * split; cbn; try assumption. all: try reflexivity. all: rewrite Er; discriminate.
  - (* resolved *)
    cbn. rewrite app_nil_r. unfold host_resolved, bnd, mod_. cbn [fst snd].
    destruct R as [r1 r2 r3 r4 r5 r6 r7 r8 r9 r10 r11].
    set (s1 := UC (u_transport s) (u_gateways s ++ [Gw (u_transport s) ip]) (Some (length (u_gateways s)))
                  (u_queue s) (u_sched s) (u_sent s) (u_calls s) (u_connects s) (u_disconnects s)).
    assert (Hrc : exists n, run_connect cfg s1 = (UC (u_transport s) (u_gateways s ++ [Gw (u_transport s) ip]) (Some (length (u_gateways s)))
                  (u_queue s) (u_sched s) (u_sent s) (u_calls s) n (u_disconnects s), Ok tt)).
    { unfold run_connect. destruct (uc_connect cfg) as [c|] eqn:Ec.
      - destruct (proj1 Q c (u_connects s1) Ec) as [-> ->]. eexists. reflexivity.
      - eexists. reflexivity. }
    destruct Hrc as [n ->]. unfold flush_items. cbn [u_queue fst]. rewrite r4.
    apply (refines_flush cfg _ _ _ (AL true (a_connected a) (a_gone a) (a_waiting a))); [|reflexivity|exact r5].
    split; cbn; try assumption; try reflexivity.
    + lia.
    + intros g [= <-]. exists (Gw (u_transport s) ip). split; [|cbn; auto].
      rewrite lookup_app_r by lia. rewrite Nat.sub_diag. reflexivity.
    + intros g it Hin. destruct (r8 g it Hin) as (gw & t & Hgw & Ht). exists gw, t. split; [|exact Ht].
      apply lookup_app_l_Some. exact Hgw.
    + intros gw Hin. apply in_app_or in Hin as [Hin|[<-|[]]].
      * destruct (r9 gw Hin) as [H1 H2]. split; [apply in_or_app; left; exact H1|exact H2].
      * cbn. split; [apply in_or_app; right; left; reflexivity|]. intros t Ht. exact (r10 t Ht).
    + intros t h it Hin. destruct (r11 t h it Hin) as [H1 H2]. split; [apply in_or_app; left; exact H1|exact H2].
  - (* connect *)
    unfold mod_. cbn [fst]. unfold uc_connect_to, flush_items.
    destruct R as [r1 r2 r3 r4 r5 r6 r7 r8 r9 r10 r11].
    destruct t as [t|]; cbn [u_queue resolutions connections flat_map app]; rewrite ?app_nil_r; rewrite r4.
    + apply (refines_flush cfg _ _ _ (AL (a_resolved a) true (a_gone a) (a_waiting a))); [|reflexivity|exact r5].
      assert (Halt : forall g gw, u_gateways s !! g = Some gw ->
        exists gw', (match u_gateway s with None => u_gateways s
            | Some g => alter (fun gw => Gw (Some t) (g_host gw)) g (u_gateways s) end) !! g = Some gw' /\
            (gw' = gw \/ gw' = Gw (Some t) (g_host gw)) /\ (u_gateway s = Some g -> gw' = Gw (Some t) (g_host gw))).
      { intros g gw Hgw. destruct (u_gateway s) as [g0|].
        - destruct (decide (g0 = g)) as [->|Hne].
          + rewrite list_lookup_alter, Hgw. cbn. eexists. split; [reflexivity|]. split; [right|]; reflexivity.
          + rewrite list_lookup_alter_ne by exact Hne. exists gw. split; [exact Hgw|]. split; [left; reflexivity|].
            intros [= H]. congruence.
        - exists gw. split; [exact Hgw|]. split; [left; reflexivity|discriminate]. }
      split; cbn; try assumption; try reflexivity.
      * lia.
      * intros g Hg. destruct (r7 g Hg) as (gw & Hgw & _). destruct (Halt g gw Hgw) as (gw' & H1 & _ & H3).
        exists gw'. split; [exact H1|]. intros t' [= <-]. rewrite (H3 Hg). reflexivity.
      * intros g it Hin. destruct (r8 g it Hin) as (gw & t0 & Hgw & Ht0). destruct (Halt g gw Hgw) as (gw' & H1 & H2 & _).
        destruct H2 as [-> | ->]; [exists gw, t0|exists (Gw (Some t) (g_host gw)), t]; auto.
      * intros gw' Hin. apply elem_of_list_In, elem_of_list_lookup in Hin as [g Hg].
        assert (exists gw, u_gateways s !! g = Some gw) as [gw Hgw].
        { destruct (u_gateway s) as [g0|]; [|eauto]. destruct (decide (g0 = g)) as [->|Hne].
          - rewrite list_lookup_alter in Hg. destruct (u_gateways s !! g); [eauto|discriminate].
          - rewrite list_lookup_alter_ne in Hg by exact Hne. eauto. }
        destruct (Halt g gw Hgw) as (gw'' & H1 & H2 & _). rewrite Hg in H1. injection H1 as <-.
        assert (Hgin : In gw (u_gateways s)) by (apply elem_of_list_In, elem_of_list_lookup; eauto).
        destruct (r9 gw Hgin) as [A1 A2]. destruct H2 as [-> | ->].
        -- split; [exact A1|]. intros t' Ht'. apply in_or_app. left. apply A2, Ht'.
        -- cbn. split; [exact A1|]. intros t' [= <-]. apply in_or_app. right. left. reflexivity.
      * intros t' [= <-]. apply in_or_app. right. left. reflexivity.
      * intros t' h it Hin. destruct (r11 t' h it Hin) as [A1 A2]. split; [exact A1|]. apply in_or_app. left. exact A2.
    + apply (refines_flush cfg _ _ _ a); [|reflexivity|exact r5]. split; cbn; try assumption; try reflexivity. lia.
  - (* disconnect *)
    cbn. rewrite !app_nil_r. destruct R as [r1 r2 r3 r4 r5 r6 r7 r8 r9 r10 r11]. unfold uc_disconnect_from, bnd, mod_.
    destruct (uc_disconnect cfg) as [f|] eqn:Ef; [rewrite (proj2 Q f (u_disconnects s) Ef)|]; cbn [fst];
    (split; cbn; try assumption; try reflexivity;
      [ rewrite andb_false_r; discriminate
      | intros g Hg; destruct (r7 g Hg) as (gw & Hgw & _); exists gw; split; [exact Hgw|discriminate]
      | discriminate ]).
  - (* turn *)
    cbn [resolutions connections flat_map]. rewrite !app_nil_r. apply turn_state, R.
Qed.

Lemma run_refines N cfg (Q : quiet cfg) evs : forall hosts ts s a,
  refines (uc_limit cfg) hosts ts s a ->
  refines (uc_limit cfg) (hosts ++ resolutions evs) (ts ++ connections evs)
    (urun N cfg evs s) (a_run (uc_limit cfg) evs a).
Proof.
  induction evs as [|e evs IH]; intros hosts ts s a R.
  - cbn. rewrite !app_nil_r. exact R.
  - unfold urun, a_run. cbn [fold_left].
    pose proof (IH _ _ _ _ (step_refines N cfg hosts ts s a e Q R)) as R2.
    assert (Hr : resolutions (e :: evs) = resolutions [e] ++ resolutions evs) by (unfold resolutions; cbn; rewrite app_nil_r; reflexivity).
    assert (Hc : connections (e :: evs) = connections [e] ++ connections evs) by (unfold connections; cbn; rewrite app_nil_r; reflexivity).
    rewrite Hr, Hc, !app_assoc. exact R2.
Qed.

(** a new client *)
Definition known (is_ip : str -> bool) (host : str) : list str := if is_ip host then [host] else [].
Lemma create_refines cfg (Q : quiet cfg) is_ip host :
  refines (uc_limit cfg) (known is_ip host) [] (fst (uc_create cfg is_ip host uc_init)) (a_init (is_ip host)) /\
  snd (uc_create cfg is_ip host uc_init) = Ok tt.
Proof.
  assert (R0 : refines (uc_limit cfg) [] [] uc_init (a_init false)).
  { split; cbn; try reflexivity; try discriminate; try contradiction. lia. }
  unfold uc_create, known. destruct (is_ip host); [|split; [exact R0|reflexivity]].
  pose proof (step_refines (Unet (fun _ => Sent 0) (fun _ => None)) cfg [] [] uc_init _ (EResolved host) Q R0) as R.
  split; [exact R|].
  unfold host_resolved, bnd, mod_, run_connect. cbn [fst snd].
  destruct (uc_connect cfg) as [c|] eqn:Ec; [|reflexivity]. cbn [u_connects uc_init].
  destruct (proj1 Q c 0%nat Ec) as [-> ->]. reflexivity.
Qed.

(** ** Consequences *)
Section history.
Context (N : unet) (cfg : ucfg) (Q : quiet cfg) (is_ip : str -> bool) (host : str) (evs : list uevent).
Notation s := (urun N cfg evs (fst (uc_create cfg is_ip host uc_init))).
Notation a := (a_run (uc_limit cfg) evs (a_init (is_ip host))).

Lemma history_refines :
  refines (uc_limit cfg) (known is_ip host ++ resolutions evs) (connections evs) s a.
Proof. apply (run_refines N cfg Q evs _ []). apply create_refines, Q. Qed.

Lemma fifo : map snd (u_sent s) ++ map snd (u_sched s) = a_gone a /\ u_queue s = a_waiting a.
Proof. destruct history_refines as [r1 r2 r3 r4 ? ? ? ? ? ? ?]. split; assumption. Qed.

Lemma bounded : (length (u_queue s) <= uc_limit cfg)%nat.
Proof. rewrite (proj2 fifo). apply history_refines. Qed.

Lemma addressed t h it : In (t, h, it) (u_sent s) ->
  In h (known is_ip host ++ resolutions evs) /\ In t (connections evs).
Proof. apply history_refines. Qed.
End history.

(** the specification alone: order, no duplicates, what is lost *)
Definition a_inv (a : aline) : Prop := a_resolved a && a_connected a = true -> a_waiting a = [].
Lemma a_inv_step limit a e : a_inv a -> a_inv (a_step limit a e).
Proof.
  unfold a_inv. intros H. destruct e as [it|ip|[t|]| |]; cbn; unfold release; cbn.
  - destruct (a_resolved a && a_connected a) eqn:Er; cbn; [exact H|].
    destruct (_ <? _)%nat; cbn; rewrite Er; discriminate.
  - destruct (a_connected a) eqn:Ec; cbn; [reflexivity|]. discriminate.
  - destruct (a_resolved a) eqn:Ec; cbn; [reflexivity|]. discriminate.
  - destruct (a_resolved a && a_connected a) eqn:Er; cbn; [reflexivity|]. rewrite Er. discriminate.
  - rewrite andb_false_r. discriminate.
  - exact H.
Qed.
Lemma a_inv_run limit evs : forall a, a_inv a -> a_inv (a_run limit evs a).
Proof. induction evs as [|e evs IH]; intros a H; [exact H|]. apply IH, a_inv_step, H. Qed.

Definition taken (limit : nat) (a : aline) (e : uevent) : list item :=
  match e with
  | EWrite it => if (length (a_waiting a) <? limit)%nat || (a_resolved a && a_connected a) then [it] else []
  | _ => []
  end.
Lemma a_step_all limit a e : a_inv a ->
  a_gone (a_step limit a e) ++ a_waiting (a_step limit a e) = (a_gone a ++ a_waiting a) ++ taken limit a e.
Proof.
  intros H. unfold a_inv in H. destruct e as [it|ip|[t|]| |]; cbn; unfold release; cbn; rewrite ?app_nil_r.
  - destruct (a_resolved a && a_connected a) eqn:Er; cbn.
    + rewrite (H eq_refl), !app_nil_r, orb_true_r. reflexivity.
    + rewrite orb_false_r. destruct (_ <? _)%nat; cbn; [rewrite app_assoc|rewrite app_nil_r]; reflexivity.
  - destruct (a_connected a); cbn; rewrite ?app_nil_r; reflexivity.
  - destruct (a_resolved a); cbn; rewrite ?app_nil_r; reflexivity.
  - destruct (a_resolved a && a_connected a); cbn; rewrite ?app_nil_r; reflexivity.
  - reflexivity.
  - reflexivity.
Qed.

Lemma a_sublist limit evs : forall a, a_inv a ->
  exists ws, sublist ws (writes evs) /\
    a_gone (a_run limit evs a) ++ a_waiting (a_run limit evs a) = (a_gone a ++ a_waiting a) ++ ws.
Proof.
  induction evs as [|e evs IH]; intros a H.
  - exists []. cbn. split; [constructor|]. rewrite app_nil_r. reflexivity.
  - destruct (IH (a_step limit a e) (a_inv_step limit a e H)) as (ws & Hs & He).
    exists (taken limit a e ++ ws). split.
    + change (writes (e :: evs)) with ((match e with EWrite it => [it] | _ => [] end) ++ writes evs).
      apply sublist_app; [|exact Hs]. destruct e; cbn; [|constructor..].
      destruct (_ || _); [reflexivity|]. constructor. constructor.
    + change (a_run limit (e :: evs) a) with (a_run limit evs (a_step limit a e)).
      rewrite He, a_step_all by exact H. rewrite <- !app_assoc. reflexivity.
Qed.

(** a client that is not both resolved and connected keeps the earliest writes *)
Lemma a_offline limit evs : forall a,
  (a_resolved a = false /\ resolutions evs = [] \/ a_connected a = false /\ connections evs = []) ->
  (length (a_waiting a) <= limit)%nat ->
  a_gone (a_run limit evs a) = a_gone a /\
  a_waiting (a_run limit evs a) = take limit (a_waiting a ++ writes evs).
Proof.
  induction evs as [|e evs IH]; intros a H Hl.
  - cbn. rewrite app_nil_r. split; [reflexivity|]. rewrite take_ge by exact Hl. reflexivity.
  - change (a_run limit (e :: evs) a) with (a_run limit evs (a_step limit a e)).
    assert (Hoff : a_resolved a && a_connected a = false).
    { destruct H as [[-> _]|[-> _]]; [reflexivity|apply andb_false_r]. }
    destruct e as [it|ip|[t|]| |]; cbn [a_step]; rewrite ?Hoff.
    + change (writes (EWrite it :: evs)) with (it :: writes evs).
      destruct (length (a_waiting a) <? limit)%nat eqn:El.
      * apply Nat.ltb_lt in El. destruct (IH (AL (a_resolved a) (a_connected a) (a_gone a) (a_waiting a ++ [it]))) as [A1 A2].
        -- exact H.
        -- cbn. rewrite app_length. cbn. lia.
        -- rewrite A1, A2. cbn. rewrite <- app_assoc. split; reflexivity.
      * apply Nat.ltb_ge in El. destruct (IH a H Hl) as [A1 A2]. rewrite A1, A2. split; [reflexivity|].
        rewrite !take_app_le by lia. reflexivity.
    + destruct H as [[_ H]|[Hc H]]; [discriminate|]. unfold release. cbn [a_resolved a_connected a_gone a_waiting].
      rewrite Hc. cbn [andb]. destruct (IH (AL true false (a_gone a) (a_waiting a))) as [A1 A2]; [right; auto|exact Hl|].
      rewrite A1, A2. split; reflexivity.
    + destruct H as [[Hc H]|[_ H]]; [|discriminate]. unfold release. cbn [a_resolved a_connected a_gone a_waiting].
      rewrite Hc. cbn [andb]. destruct (IH (AL false true (a_gone a) (a_waiting a))) as [A1 A2]; [left; auto|exact Hl|].
      rewrite A1, A2. split; reflexivity.
    + unfold release. rewrite Hoff. exact (IH a H Hl).
    + destruct (IH (AL (a_resolved a) false (a_gone a) (a_waiting a))) as [A1 A2]; [|exact Hl|rewrite A1, A2; split; reflexivity].
      cbn. destruct H as [H|[_ H]]; [left|right]; auto.
    + exact (IH a H Hl).
Qed.

(** ** Turns and callbacks *)
(** the callback calls made for the writes handed to the transport so far *)
Inductive called (N : unet) : list (nat * str * item) -> list (nat * option Z) -> Prop :=
| called_nil : called N [] []
| called_silent sent calls t h d : called N sent calls -> called N (sent ++ [(t, h, (d, None))]) calls
| called_once sent calls t h d c b : called N sent calls ->
    n_send N (length sent) = Sent b ->
    (forall e, n_cb N (length calls) = Some e -> e <> OverflowError /\ e <> TypeError /\ e <> SocketError) ->
    called N (sent ++ [(t, h, (d, Some c))]) (calls ++ [(c, Some b)])
| called_twice sent calls t h d c b e : called N sent calls ->
    n_send N (length sent) = Sent b ->
    n_cb N (length calls) = Some e -> e = OverflowError \/ e = TypeError \/ e = SocketError ->
    called N (sent ++ [(t, h, (d, Some c))]) (calls ++ [(c, Some b); (c, None)])
| called_error sent calls t h d c e : called N sent calls ->
    n_send N (length sent) = SendFails e -> e = OverflowError \/ e = TypeError \/ e = SocketError ->
    called N (sent ++ [(t, h, (d, Some c))]) (calls ++ [(c, None)])
| called_never sent calls t h d c e : called N sent calls ->
    n_send N (length sent) = SendFails e -> e <> OverflowError -> e <> TypeError -> e <> SocketError ->
    called N (sent ++ [(t, h, (d, Some c))]) calls.

Lemma caught_iff e : caught e = true <-> e = OverflowError \/ e = TypeError \/ e = SocketError.
Proof. destruct e; cbn; split; intros H; auto; try discriminate; destruct H as [H|[H|H]]; discriminate. Qed.
Lemma caught_niff e : caught e = false <-> e <> OverflowError /\ e <> TypeError /\ e <> SocketError.
Proof.
  split.
  - intros H. split; [|split]; intros ->; discriminate H.
  - destruct e; cbn; intros (A & B & C); try reflexivity; congruence.
Qed.

Lemma gateway_write_called N g t it s :
  g_transport g = Some t -> called N (u_sent s) (u_calls s) ->
  called N (u_sent (fst (gateway_write N g it s))) (u_calls (fst (gateway_write N g it s))).
Proof.
  intros Ht H. unfold gateway_write, try_caught, bnd, call_back. rewrite Ht. destruct it as [d [c|]]; cbn [snd].
  - destruct (n_send N (length (u_sent s))) as [b|e] eqn:Es.
    + cbn [u_calls uadd_sent]. destruct (n_cb N (length (u_calls s))) as [e|] eqn:Ec.
      * destruct (caught e) eqn:Eg.
        -- cbn [uadd_call u_calls]. apply caught_iff in Eg.
           match goal with |- context [n_cb N ?z] => destruct (n_cb N z) end;
           cbn; rewrite <- app_assoc; cbn; eapply called_twice; eauto.
        -- cbn. apply caught_niff in Eg. eapply called_once; eauto. intros e' He'. congruence.
      * cbn. eapply called_once; eauto. intros e' He'. congruence.
    + destruct (caught e) eqn:Eg.
      * cbn [u_calls uadd_sent]. apply caught_iff in Eg. destruct (n_cb N (length (u_calls s))); cbn; eapply called_error; eauto.
      * cbn. apply caught_niff in Eg as (A & B & C). eapply called_never; eauto.
  - destruct (n_send N (length (u_sent s))) as [b|e] eqn:Es; [|destruct (caught e)]; cbn; apply called_silent; exact H.
Qed.

Lemma writes_calls cfg q : forall s, u_sent (fold_left (fun s it => uc_write cfg it s) q s) = u_sent s /\
  u_calls (fold_left (fun s it => uc_write cfg it s) q s) = u_calls s /\
  u_connects (fold_left (fun s it => uc_write cfg it s) q s) = u_connects s /\
  u_disconnects (fold_left (fun s it => uc_write cfg it s) q s) = u_disconnects s /\
  u_gateways (fold_left (fun s it => uc_write cfg it s) q s) = u_gateways s /\
  u_gateway (fold_left (fun s it => uc_write cfg it s) q s) = u_gateway s /\
  u_transport (fold_left (fun s it => uc_write cfg it s) q s) = u_transport s.
Proof.
  induction q as [|it q IH]; intros s; cbn [fold_left]; [auto 10|].
  destruct (IH (uc_write cfg it s)) as (A1 & A2 & A3 & A4 & A5 & A6 & A7).
  rewrite A1, A2, A3, A4, A5, A6, A7. unfold uc_write. destruct (u_gateway s) eqn:E1, (u_transport s) eqn:E2; cbn; auto 10.
Qed.

(** every event but a turn leaves the transport and the callbacks alone *)
Lemma step_calls N cfg e s : e <> ETurn ->
  u_sent (fst (ustep N cfg e s)) = u_sent s /\ u_calls (fst (ustep N cfg e s)) = u_calls s.
Proof.
  intros He. destruct e as [it|ip|t| |]; cbn [ustep]; [..|congruence].
  - destruct (writes_calls cfg [it] s) as (A1 & A2 & _). split; assumption.
  - unfold host_resolved, bnd, mod_, run_connect. cbn [fst snd].
    destruct (uc_connect cfg) as [c|].
    + match goal with |- context [fold_left ?f (cc_writes c ?n) ?y] => destruct (writes_calls cfg (cc_writes c n) y) as (A1 & A2 & _) end.
      cbn [u_connects] in *.
      destruct (cc_raises c (u_connects s)); cbn [fst snd]; [split; [exact A1|exact A2]|].
      unfold flush_items.
      match goal with |- context [fold_left ?f (u_queue ?x) ?y] => destruct (writes_calls cfg (u_queue x) y) as (B1 & B2 & _) end.
      rewrite B1, B2. cbn [u_sent u_calls uset_queue]. split; [exact A1|exact A2].
    + cbn [fst]. unfold flush_items.
      match goal with |- context [fold_left ?f (u_queue ?x) ?y] => destruct (writes_calls cfg (u_queue x) y) as (B1 & B2 & _) end.
      rewrite B1, B2. split; reflexivity.
  - unfold mod_, uc_connect_to, flush_items. cbn [fst].
    match goal with |- context [fold_left ?f (u_queue ?x) ?y] => destruct (writes_calls cfg (u_queue x) y) as (B1 & B2 & _) end.
    rewrite B1, B2. destruct t; split; reflexivity.
  - unfold uc_disconnect_from, bnd, mod_. destruct (uc_disconnect cfg) as [f|]; [destruct (f _)|]; split; reflexivity.
Qed.

Lemma turn_called N s : called N (u_sent s) (u_calls s) ->
  (forall g it, In (g, it) (u_sched s) -> exists gw t, u_gateways s !! g = Some gw /\ g_transport gw = Some t) ->
  called N (u_sent (fst (turn N s))) (u_calls (fst (turn N s))).
Proof.
  intros H Hs. unfold turn. destruct (u_sched s) as [|[g it] rest]; [exact H|].
  destruct (Hs g it (or_introl eq_refl)) as (gw & t & -> & Ht).
  apply (gateway_write_called N gw t); [exact Ht|exact H].
Qed.

Lemma called_history N cfg (Q : quiet cfg) is_ip host evs :
  let s := urun N cfg evs (fst (uc_create cfg is_ip host uc_init)) in called N (u_sent s) (u_calls s).
Proof.
  intros s. subst s. induction evs as [|e evs IH] using rev_ind.
  - cbn. unfold uc_create. destruct (is_ip host); [|constructor].
    destruct (step_calls N cfg (EResolved host) uc_init) as [A1 A2]; [discriminate|]. cbn [ustep] in A1, A2.
    rewrite A1, A2. constructor.
  - unfold urun in *. rewrite fold_left_app. cbn [fold_left].
    set (s := fold_left _ evs _) in *.
    assert (R : refines (uc_limit cfg) (known is_ip host ++ resolutions evs) (connections evs) s
                 (a_run (uc_limit cfg) evs (a_init (is_ip host)))) by (apply (history_refines N cfg Q)).
    destruct e as [it|ip|t| |]; [..|apply turn_called; [exact IH|apply R]];
      match goal with |- context [ustep N cfg ?e s] => destruct (step_calls N cfg e s) as [-> ->]; [discriminate|exact IH] end.
Qed.

(** how many writes have been handed over: one per turn that finds one *)
Lemma turn_count N cfg (Q : quiet cfg) is_ip host evs :
  let s := urun N cfg evs (fst (uc_create cfg is_ip host uc_init)) in
  map snd (u_sent (fst (turn N s))) = map snd (u_sent s) ++ map snd (take 1 (u_sched s)) /\
  u_sched (fst (turn N s)) = drop 1 (u_sched s).
Proof.
  intros s. assert (R : refines (uc_limit cfg) (known is_ip host ++ resolutions evs) (connections evs) s
                 (a_run (uc_limit cfg) evs (a_init (is_ip host)))) by (apply (history_refines N cfg Q)).
  unfold turn. destruct (u_sched s) as [|[g it] rest] eqn:Es.
  - cbn. rewrite app_nil_r, Es. split; reflexivity.
  - destruct (rf_sched _ _ _ _ _ R g it) as (gw & t & Hg & Ht); [rewrite Es; left; reflexivity|]. rewrite Hg.
    destruct (gateway_write_state N gw t it (uset_sched rest s) Ht) as [(A1 & A2 & A3 & A4 & A5) A6].
    rewrite A6, A5. cbn. rewrite map_app. cbn. rewrite take_0. split; reflexivity.
Qed.

(** ** Connect notifications *)
Definition has_connect (cfg : ucfg) : nat := match uc_connect cfg with Some _ => 1 | None => 0 end.
Lemma call_back_connects N cb v s : u_connects (fst (call_back N cb v s)) = u_connects s.
Proof. unfold call_back. destruct cb; cbn; [destruct (n_cb _ _)|]; reflexivity. Qed.
Lemma gateway_write_connects N gw it s : u_connects (fst (gateway_write N gw it s)) = u_connects s.
Proof.
  unfold gateway_write, try_caught, bnd. destruct (g_transport gw) as [t|]; [|reflexivity].
  set (s1 := uadd_sent (t, g_host gw, it) s). change (u_connects s) with (u_connects s1).
  destruct (n_send N (length (u_sent s))) as [b|e].
  - pose proof (call_back_connects N (snd it) (Some b) s1) as H.
    destruct (call_back N (snd it) (Some b) s1) as [s2 [[]|e]]; cbn [fst] in *; [exact H|].
    destruct (caught e); [rewrite call_back_connects|]; exact H.
  - destruct (caught e); [apply call_back_connects|reflexivity].
Qed.
Lemma step_connects N cfg e s :
  u_connects (fst (ustep N cfg e s)) = (u_connects s + has_connect cfg * length (resolutions [e]))%nat.
Proof.
  unfold has_connect. destruct e as [it|ip|t| |]; cbn [ustep resolutions flat_map app length]; rewrite ?Nat.mul_0_r, ?Nat.add_0_r, ?Nat.mul_1_r.
  - apply (writes_calls cfg [it] s).
  - unfold host_resolved, bnd, mod_, run_connect. cbn [fst snd].
    destruct (uc_connect cfg) as [c|].
    + match goal with |- context [fold_left ?f (cc_writes c ?n) ?y] => destruct (writes_calls cfg (cc_writes c n) y) as (_ & _ & A1 & _) end.
      cbn [u_connects] in *.
      destruct (cc_raises c (u_connects s)); cbn [fst snd]; [rewrite A1; lia|].
      unfold flush_items.
      match goal with |- context [fold_left ?f (u_queue ?x) ?y] => destruct (writes_calls cfg (u_queue x) y) as (_ & _ & B1 & _) end.
      rewrite B1. cbn [u_connects uset_queue]. rewrite A1. lia.
    + cbn [fst]. unfold flush_items.
      match goal with |- context [fold_left ?f (u_queue ?x) ?y] => destruct (writes_calls cfg (u_queue x) y) as (_ & _ & B1 & _) end.
      rewrite B1. cbn. lia.
  - unfold mod_, uc_connect_to, flush_items. cbn [fst].
    match goal with |- context [fold_left ?f (u_queue ?x) ?y] => destruct (writes_calls cfg (u_queue x) y) as (_ & _ & B1 & _) end.
    rewrite B1. destruct t; reflexivity.
  - unfold uc_disconnect_from, bnd, mod_. destruct (uc_disconnect cfg) as [f|]; [destruct (f _)|]; reflexivity.
  - unfold turn. destruct (u_sched s) as [|[g it] rest]; [reflexivity|]. destruct (_ !! g) as [gw|]; [|reflexivity].
    rewrite gateway_write_connects. reflexivity.
Qed.
Lemma run_connects N cfg evs : forall s,
  u_connects (urun N cfg evs s) = (u_connects s + has_connect cfg * length (resolutions evs))%nat.
Proof.
  induction evs as [|e evs IH]; intros s; [cbn; lia|].
  change (urun N cfg (e :: evs) s) with (urun N cfg evs (fst (ustep N cfg e s))).
  rewrite IH, step_connects.
  assert (Hr : resolutions (e :: evs) = resolutions [e] ++ resolutions evs) by (unfold resolutions; cbn; rewrite app_nil_r; reflexivity).
  rewrite Hr, app_length. lia.
Qed.
Lemma create_connects cfg is_ip host evs N :
  u_connects (urun N cfg evs (fst (uc_create cfg is_ip host uc_init)))
  = (has_connect cfg * ((if is_ip host then 1 else 0) + length (resolutions evs)))%nat.
Proof.
  rewrite run_connects. unfold uc_create. destruct (is_ip host); cbn [fst].
  - pose proof (step_connects N cfg (EResolved host) uc_init) as H. cbn [ustep resolutions flat_map app length] in H.
    rewrite H. cbn [u_connects uc_init]. lia.
  - cbn. lia.
Qed.

(** everything a client holds or has passed on, in order *)
Definition all_items (s : uclient) : list item := map snd (u_sent s) ++ map snd (u_sched s) ++ u_queue s.
Lemma step_items N cfg (Q : quiet cfg) is_ip host evs e :
  let s := urun N cfg evs (fst (uc_create cfg is_ip host uc_init)) in
  let s' := urun N cfg (evs ++ [e]) (fst (uc_create cfg is_ip host uc_init)) in
  all_items s' = all_items s ++
    match e with
    | EWrite it => if decide (length (u_queue s) < uc_limit cfg \/ u_gateway s <> None /\ u_transport s <> None)%nat
                   then [it] else []
    | _ => []
    end.
Proof.
  intros s s'.
  destruct (fifo N cfg Q is_ip host evs) as [A1 A2]. destruct (fifo N cfg Q is_ip host (evs ++ [e])) as [B1 B2].
  fold s in A1, A2. fold s' in B1, B2. unfold all_items. rewrite !app_assoc, A1, A2, B1, B2.
  unfold a_run at 1 2. rewrite fold_left_app. cbn [fold_left].
  set (a := fold_left _ evs _). change (a_run (uc_limit cfg) evs (a_init (is_ip host))) with a in *.
  rewrite a_step_all by (apply a_inv_run; intros H; cbn in H; rewrite andb_false_r in H; discriminate).
  f_equal. destruct e as [it| | | |]; try reflexivity. cbn [taken].
  pose proof (history_refines N cfg Q is_ip host evs) as R. fold s in R. change (a_run (uc_limit cfg) evs (a_init (is_ip host))) with a in R.
  rewrite (rf_res _ _ _ _ _ R), (rf_con _ _ _ _ _ R).
  destruct (decide _) as [Hd|Hd].
  - destruct Hd as [Hd|[Hd1 Hd2]].
    + assert ((length (a_waiting a) <? uc_limit cfg)%nat = true) as -> by (apply Nat.ltb_lt, Hd). reflexivity.
    + destruct (u_gateway s), (u_transport s); try congruence. cbn. rewrite orb_true_r. reflexivity.
  - assert ((length (a_waiting a) <? uc_limit cfg)%nat = false) as -> by (apply Nat.ltb_ge; lia). cbn [orb].
    destruct (u_gateway s), (u_transport s); cbn; try reflexivity. exfalso. apply Hd. right. split; discriminate.
Qed.
(** nothing is lost as long as at most [limit] writes were made *)
Lemma items_in_order N cfg (Q : quiet cfg) is_ip host evs :
  let s := urun N cfg evs (fst (uc_create cfg is_ip host uc_init)) in
  sublist (all_items s) (writes evs) /\ ((length (writes evs) <= uc_limit cfg)%nat -> all_items s = writes evs).
Proof.
  intros s. destruct (fifo N cfg Q is_ip host evs) as [A1 A2]. fold s in A1, A2.
  assert (I0 : a_inv (a_init (is_ip host))) by (intros H; cbn in H; rewrite andb_false_r in H; discriminate).
  unfold all_items. rewrite app_assoc, A1, A2. split.
  - destruct (a_sublist (uc_limit cfg) evs _ I0) as (ws & H1 & H2). rewrite H2. cbn. exact H1.
  - clear A1 A2 s. assert (H : forall a, a_inv a -> (length (a_waiting a) + length (writes evs) <= uc_limit cfg)%nat ->
      a_gone (a_run (uc_limit cfg) evs a) ++ a_waiting (a_run (uc_limit cfg) evs a) = (a_gone a ++ a_waiting a) ++ writes evs).
    { induction evs as [|e evs IH]; intros a Ia Hl; [cbn; rewrite app_nil_r; reflexivity|].
      change (a_run (uc_limit cfg) (e :: evs) a) with (a_run (uc_limit cfg) evs (a_step (uc_limit cfg) a e)).
      assert (Hw : writes (e :: evs) = (match e with EWrite it => [it] | _ => [] end) ++ writes evs) by reflexivity.
      rewrite Hw in *. rewrite app_length in Hl.
      rewrite IH.
      - rewrite a_step_all by exact Ia. rewrite <- !app_assoc. do 3 f_equal. destruct e; try reflexivity. cbn.
        assert ((length (a_waiting a) <? uc_limit cfg)%nat = true) as -> by (apply Nat.ltb_lt; cbn in Hl; lia). reflexivity.
      - apply a_inv_step, Ia.
      - destruct e as [it|ip|[t|]| |]; cbn in *; unfold release; cbn.
        + destruct (_ && _); cbn; [lia|]. destruct (_ <? _)%nat; cbn; rewrite ?app_length; cbn; lia.
        + destruct (a_connected a); cbn; lia.
        + destruct (a_resolved a); cbn; lia.
        + destruct (_ && _); cbn; lia.
        + lia.
        + lia. }
    intros Hl. rewrite H; [reflexivity|exact I0|cbn; lia].
Qed.
(** offline *)
Lemma offline_queue N cfg (Q : quiet cfg) is_ip host evs :
  let s := urun N cfg evs (fst (uc_create cfg is_ip host uc_init)) in
  (known is_ip host ++ resolutions evs = [] \/ connections evs = []) ->
  u_sent s = [] /\ u_sched s = [] /\ u_queue s = take (uc_limit cfg) (writes evs).
Proof.
  intros s H. destruct (fifo N cfg Q is_ip host evs) as [A1 A2]. fold s in A1, A2.
  destruct (a_offline (uc_limit cfg) evs (a_init (is_ip host))) as [B1 B2].
  - unfold known in H. cbn. destruct H as [H|H]; [|right; auto]. left. destruct (is_ip host); [discriminate|]. split; [reflexivity|exact H].
  - cbn. lia.
  - rewrite B1 in A1. cbn in A1. apply app_eq_nil in A1 as [C1 C2]. apply map_eq_nil in C1, C2.
    rewrite A2, B2. auto.
Qed.
Lemma called_each_once N sent calls : called N sent calls ->
  (forall n, n_cb N n = None) -> (forall n e, n_send N n = SendFails e -> e = OverflowError \/ e = TypeError \/ e = SocketError) ->
  map fst calls = omap snd (map snd sent).
Proof.
  intros H Hc Hs. induction H as [|sent calls t h d H IH|sent calls t h d c b H IH H1 H2|sent calls t h d c b e H IH H1 H2 H3
    |sent calls t h d c e H IH H1 H2|sent calls t h d c e H IH H1 H2 H3 H4].
  - reflexivity.
  - rewrite map_app, omap_app, IH. cbn. rewrite app_nil_r. reflexivity.
  - rewrite !map_app, omap_app, IH. reflexivity.
  - rewrite Hc in H2. discriminate.
  - rewrite !map_app, omap_app, IH. reflexivity.
  - destruct (Hs _ _ H1) as [?|[?|?]]; congruence.
Qed.
Lemma each_once N cfg (Q : quiet cfg) is_ip host evs :
  let s := urun N cfg evs (fst (uc_create cfg is_ip host uc_init)) in
  (forall n, n_cb N n = None) -> (forall n e, n_send N n = SendFails e -> e = OverflowError \/ e = TypeError \/ e = SocketError) ->
  map fst (u_calls s) = omap snd (map snd (u_sent s)).
Proof. intros s. apply called_each_once, called_history, Q. Qed.
Lemma literal_twice N cfg c is_ip host evs ip :
  uc_connect cfg = Some c -> resolutions evs = [ip] ->
  u_connects (urun N cfg evs (fst (uc_create cfg is_ip host uc_init))) = if is_ip host then 2%nat else 1%nat.
Proof.
  intros Hc Hr. rewrite create_connects, Hr. unfold has_connect. rewrite Hc. destruct (is_ip host); reflexivity.
Qed.
