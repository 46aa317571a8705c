(** txstatsd/protocol.py under threads: TwistedStatsDClient.write may be called from
    any thread (protocol.py:198-201) while the reactor thread runs connect,
    disconnect, host_resolved and _flush_items.  One step is one access to the
    shared attributes, so every interleaving python's interpreter lock allows is
    an execution here.  Messages are numbers; callbacks are left out; the reactor
    calls the scheduled writes in the order of [h_out]. *)
From Verif Require Import Base.

(** what the threads share *)
Record shared := Sh {
  h_gateway : bool;            (* self.transport_gateway is not None *)
  h_transport : bool;          (* self.transport is not None *)
  h_lists : list (list nat);   (* every list ever bound to DataQueue._queue *)
  h_queue : nat;               (* the list bound to it now *)
  h_out : list nat }.          (* passed to reactor.callFromThread *)

Definition sh_list (o : nat) (h : shared) : list nat := default [] (h_lists h !! o).
Definition sh_append (o m : nat) (h : shared) : shared :=
  Sh (h_gateway h) (h_transport h) (alter (fun l => l ++ [m]) o (h_lists h)) (h_queue h) (h_out h).

(** where a thread is inside write *)
Inductive wpc :=
| WGateway (m : nat)            (* protocol.py:203, first operand *)
| WTransport (m : nat)          (* protocol.py:203, second operand *)
| WSend (m : nat)               (* protocol.py:204, 95 *)
| WLen (m : nat)                (* protocol.py:64 *)
| WLoad (m : nat)               (* protocol.py:65: self._queue is evaluated *)
| WAppend (m o : nat)           (* protocol.py:65: the list is appended to *)
| WDone.
Definition wstep (limit : nat) (w : wpc) (h : shared) : wpc * shared :=
  match w with
  | WGateway m => ((if h_gateway h then WTransport m else WLen m), h)
  | WTransport m => ((if h_transport h then WSend m else WLen m), h)
  | WSend m => (WDone, Sh (h_gateway h) (h_transport h) (h_lists h) (h_queue h) (h_out h ++ [m]))
  | WLen m => ((if (length (sh_list (h_queue h) h) <? limit)%nat then WLoad m else WDone), h)
  | WLoad m => (WAppend m (h_queue h), h)
  | WAppend m o => (WDone, sh_append o m h)
  | WDone => (WDone, h)
  end.

(** where the reactor thread is inside _flush_items *)
Inductive rpc :=
| RIdle
| RLoad                         (* protocol.py:69: items = self._queue *)
| RStore (o : nat)              (* protocol.py:70: self._queue = [] *)
| RIter (o i : nat)             (* protocol.py:221: the iterator stands before index i *)
| RWrite (o i : nat) (w : wpc). (* protocol.py:223 *)
Definition rstep (limit : nat) (r : rpc) (h : shared) : rpc * shared :=
  match r with
  | RIdle => (RIdle, h)
  | RLoad => (RStore (h_queue h), h)
  | RStore o => (RIter o 0, Sh (h_gateway h) (h_transport h) (h_lists h ++ [[]]) (length (h_lists h)) (h_out h))
  | RIter o i => match sh_list o h !! i with
                 | Some m => (RWrite o (S i) (WGateway m), h)
                 | None => (RIdle, h)
                 end
  | RWrite o i WDone => (RIter o i, h)
  | RWrite o i w => let '(w', h') := wstep limit w h in (RWrite o i w', h')
  end.

Record tsys := TSys { t_shared : shared; t_reactor : rpc; t_writers : list wpc }.
(** host resolved, no transport, nothing queued: the constructor, protocol.py:129-141 *)
Definition t_init : tsys := TSys (Sh false false [[]] 0 []) RIdle [].

(** who runs next; an event only starts when the reactor thread is idle *)
Inductive tlabel :=
| TCall (m : nat)               (* some thread calls write(m) *)
| TWriter (i : nat)             (* that thread makes a step *)
| TReactor                      (* the reactor thread makes a step *)
| TResolved                     (* protocol.py:209-211, then _flush_items *)
| TConnect                      (* protocol.py:183-186, then _flush_items *)
| TDisconnect.                  (* protocol.py:193 *)
Definition tstep (limit : nat) (l : tlabel) (s : tsys) : tsys :=
  let h := t_shared s in
  match l with
  | TCall m => TSys h (t_reactor s) (t_writers s ++ [WGateway m])
  | TWriter i => match t_writers s !! i with
                 | None => s
                 | Some w => let '(w', h') := wstep limit w h in
                             TSys h' (t_reactor s) (<[i := w']> (t_writers s))
                 end
  | TReactor => let '(r', h') := rstep limit (t_reactor s) h in TSys h' r' (t_writers s)
  | TResolved => match t_reactor s with
                 | RIdle => TSys (Sh true (h_transport h) (h_lists h) (h_queue h) (h_out h)) RLoad (t_writers s)
                 | _ => s
                 end
  | TConnect => match t_reactor s with
                | RIdle => TSys (Sh (h_gateway h) true (h_lists h) (h_queue h) (h_out h)) RLoad (t_writers s)
                | _ => s
                end
  | TDisconnect => match t_reactor s with
                   | RIdle => TSys (Sh (h_gateway h) false (h_lists h) (h_queue h) (h_out h)) RIdle (t_writers s)
                   | _ => s
                   end
  end.
Definition trun (limit : nat) (ls : list tlabel) (s : tsys) : tsys := fold_left (fun s l => tstep limit l s) ls s.

(** ** Nothing is duplicated *)
Definition written (ls : list tlabel) : list nat := flat_map (fun l => match l with TCall m => [m] | _ => [] end) ls.

Definition wmsg (w : wpc) : list nat :=
  match w with
  | WGateway m | WTransport m | WSend m | WLen m | WLoad m | WAppend m _ => [m]
  | WDone => []
  end.
Definition robj (r : rpc) : option (nat * nat) :=
  match r with RIter o i | RWrite o i _ => Some (o, i) | _ => None end.
Definition rmsg (r : rpc) : list nat := match r with RWrite _ _ w => wmsg w | _ => [] end.
(** what the reactor thread's loop still has to read *)
Definition left_ (r : rpc) (h : shared) : list nat :=
  match robj r with Some (o, i) => drop i (sh_list o h) | None => [] end.

Notation cnt := (count_occ Nat.eq_dec).
Definition live (s : tsys) (x : nat) : nat :=
  (cnt (h_out (t_shared s)) x + cnt (flat_map wmsg (t_writers s)) x + cnt (rmsg (t_reactor s)) x
   + cnt (sh_list (h_queue (t_shared s)) (t_shared s)) x + cnt (left_ (t_reactor s) (t_shared s)) x)%nat.

Definition wobj (w : wpc) (h : shared) : Prop :=
  match w with WAppend _ o => (o < length (h_lists h))%nat | _ => True end.
Record tinv (s : tsys) : Prop := TInv {
  ti_cur : S (h_queue (t_shared s)) = length (h_lists (t_shared s));
  ti_iter : match robj (t_reactor s) with Some (o, _) => (o < h_queue (t_shared s))%nat | None => True end;
  ti_store : match t_reactor s with RStore o => o = h_queue (t_shared s) | _ => True end }.

Lemma sh_append_same o m h : (o < length (h_lists h))%nat -> sh_list o (sh_append o m h) = sh_list o h ++ [m].
Proof.
  intros Ho. unfold sh_list, sh_append. cbn. rewrite list_lookup_alter.
  apply lookup_lt_is_Some_2 in Ho as [l ->]. reflexivity.
Qed.
Lemma sh_append_none o m h : (length (h_lists h) <= o)%nat -> sh_append o m h = h.
Proof.
  intros Ho. unfold sh_append. destruct h as [a b l c d]. cbn in *. f_equal.
  apply list_eq. intros i. destruct (decide (o = i)) as [->|Hne].
  - rewrite list_lookup_alter. apply lookup_ge_None_2 in Ho. rewrite Ho. reflexivity.
  - apply list_lookup_alter_ne, Hne.
Qed.
Lemma sh_append_other o o' m h : o <> o' -> sh_list o' (sh_append o m h) = sh_list o' h.
Proof. intros Ho. unfold sh_list, sh_append. cbn. rewrite list_lookup_alter_ne by exact Ho. reflexivity. Qed.

(** a step inside write never makes a second copy *)
Lemma cnt_drop_app i l m x : (cnt (drop i (l ++ [m])) x <= cnt (drop i l) x + cnt [m] x)%nat.
Proof.
  destruct (decide (i <= length l)%nat) as [Hi|Hi].
  - rewrite drop_app_le by exact Hi. rewrite count_occ_app. lia.
  - rewrite (drop_ge l) by lia. rewrite drop_app_ge by lia.
    rewrite (drop_ge [m]) by (cbn; lia). cbn. lia.
Qed.

Lemma wstep_frame limit w h :
  h_gateway (snd (wstep limit w h)) = h_gateway h /\ h_transport (snd (wstep limit w h)) = h_transport h /\
  length (h_lists (snd (wstep limit w h))) = length (h_lists h) /\ h_queue (snd (wstep limit w h)) = h_queue h.
Proof. destruct w; cbn; rewrite ?alter_length; auto. Qed.

Lemma wstep_live limit w h (r : rpc) x :
  match robj r with Some (o, _) => (o < h_queue h)%nat | None => True end ->
  (cnt (h_out (snd (wstep limit w h))) x + cnt (wmsg (fst (wstep limit w h))) x
   + cnt (sh_list (h_queue h) (snd (wstep limit w h))) x + cnt (left_ r (snd (wstep limit w h))) x
   <= cnt (h_out h) x + cnt (wmsg w) x + cnt (sh_list (h_queue h) h) x + cnt (left_ r h) x)%nat.
Proof.
  intros Hr. destruct w as [m|m|m|m|m|m o|]; cbn [wstep fst snd].
  - destruct (h_gateway h); cbn [wmsg]; lia.
  - destruct (h_transport h); cbn [wmsg]; lia.
  - cbn [h_out wmsg]. rewrite count_occ_app.
    change (sh_list (h_queue h) _) with (sh_list (h_queue h) h).
    change (left_ r _) with (left_ r h). cbn [count_occ]. lia.
  - destruct (_ <? _)%nat; cbn [wmsg count_occ]; lia.
  - cbn [wmsg]. lia.
  - cbn [wmsg]. change (h_out (sh_append o m h)) with (h_out h). cbn [count_occ].
    change (if Nat.eq_dec m x then 1%nat else 0%nat) with (cnt [m] x).
    destruct (decide (length (h_lists h) <= o)%nat) as [Hge|Hlt]; [rewrite sh_append_none by exact Hge; lia|].
    destruct (decide (o = h_queue h)) as [->|Hne].
    + rewrite sh_append_same by lia. rewrite count_occ_app.
      assert (left_ r (sh_append (h_queue h) m h) = left_ r h) as ->; [|lia].
      unfold left_. destruct (robj r) as [[o i]|]; [|reflexivity]. rewrite sh_append_other by lia. reflexivity.
    + rewrite sh_append_other by exact Hne. unfold left_. destruct (robj r) as [[o' i]|]; [|cbn; lia].
      destruct (decide (o = o')) as [->|Hne'].
      * rewrite sh_append_same by lia. pose proof (cnt_drop_app i (sh_list o' h) m x). lia.
      * rewrite sh_append_other by exact Hne'. lia.
  - cbn [wmsg]. lia.
Qed.

Lemma cnt_writers i w w' l x : l !! i = Some w ->
  (cnt (flat_map wmsg (<[i := w']> l)) x + cnt (wmsg w) x = cnt (flat_map wmsg l) x + cnt (wmsg w') x)%nat.
Proof.
  intros Hi. apply take_drop_middle in Hi as Hl. assert (Hlt : (i < length l)%nat) by (apply lookup_lt_Some in Hi; exact Hi).
  rewrite insert_take_drop by exact Hlt. rewrite <- Hl at 3.
  rewrite !flat_map_app. cbn [flat_map]. rewrite !count_occ_app. lia.
Qed.

Lemma tstep_inv limit l s : tinv s -> tinv (tstep limit l s).
Proof.
  intros [A1 A2 A3]. destruct l as [m|i| | | |]; cbn [tstep].
  - split; assumption.
  - destruct (t_writers s !! i) as [w|]; [|split; assumption].
    destruct (wstep_frame limit w (t_shared s)) as (B1 & B2 & B3 & B4).
    destruct (wstep limit w (t_shared s)) as [w' h']. cbn [snd] in *.
    split; cbn; rewrite ?B3, ?B4; assumption.
  - destruct (t_reactor s) as [| |o|o i|o i w] eqn:Er; cbn [rstep robj] in *.
    + split; cbn; auto.
    + split; cbn; auto.
    + split; cbn; [|lia|exact I]. rewrite app_length. cbn. lia.
    + destruct (sh_list o (t_shared s) !! i); split; cbn; auto.
    + assert (Hw : forall w', w' <> WDone ->
        tinv (let '(r', h') := (let '(w', h') := wstep limit w' (t_shared s) in (RWrite o i w', h')) in TSys h' r' (t_writers s))).
      { intros w' _. destruct (wstep_frame limit w' (t_shared s)) as (B1 & B2 & B3 & B4).
        destruct (wstep limit w' (t_shared s)) as [w2 h']. cbn [snd] in *.
        split; cbn; rewrite ?B3, ?B4; auto. }
      destruct w; try (apply Hw; discriminate). split; cbn; auto.
  - destruct (t_reactor s) eqn:Er; split; cbn; rewrite ?Er in *; auto.
  - destruct (t_reactor s) eqn:Er; split; cbn; rewrite ?Er in *; auto.
  - destruct (t_reactor s) eqn:Er; split; cbn; rewrite ?Er in *; auto.
Qed.

Lemma tstep_live limit l s x : tinv s ->
  (live (tstep limit l s) x <= live s x + cnt (written [l]) x)%nat.
Proof.
  intros [A1 A2 A3]. unfold live. destruct l as [m|i| | | |]; cbn [tstep].
  - cbn. rewrite flat_map_app, count_occ_app. cbn. lia.
  - cbn [written flat_map app count_occ]. destruct (t_writers s !! i) as [w|] eqn:Ei; [|lia].
    pose proof (wstep_live limit w (t_shared s) (t_reactor s) x A2) as H.
    destruct (wstep_frame limit w (t_shared s)) as (B1 & B2 & B3 & B4).
    destruct (wstep limit w (t_shared s)) as [w' h']. cbn [fst snd t_shared t_reactor t_writers] in *.
    pose proof (cnt_writers i w w' (t_writers s) x Ei). rewrite B4. lia.
  - cbn [written flat_map app count_occ]. destruct (t_reactor s) as [| |o|o i|o i w] eqn:Er; cbn [rstep robj] in *.
    + cbn. lia.
    + cbn. lia.
    + subst o. cbn [t_shared t_reactor t_writers h_out h_queue rmsg left_ robj count_occ].
      unfold sh_list. cbn [h_lists h_queue].
      rewrite (lookup_app_r (h_lists (t_shared s)) [[]]) by lia. rewrite Nat.sub_diag. cbn [lookup list_lookup default].
      rewrite lookup_app_l by lia. rewrite drop_0. cbn. lia.
    + destruct (sh_list o (t_shared s) !! i) as [m|] eqn:Em; cbn [t_shared t_reactor t_writers rmsg wmsg left_ robj count_occ]; [|lia].
      rewrite (drop_S _ m i Em). cbn [count_occ]. destruct (Nat.eq_dec m x); lia.
    + assert (Hw : forall w', (cnt (h_out (snd (wstep limit w' (t_shared s)))) x
          + cnt (flat_map wmsg (t_writers s)) x + cnt (wmsg (fst (wstep limit w' (t_shared s)))) x
          + cnt (sh_list (h_queue (snd (wstep limit w' (t_shared s)))) (snd (wstep limit w' (t_shared s)))) x
          + cnt (drop i (sh_list o (snd (wstep limit w' (t_shared s))))) x
        <= cnt (h_out (t_shared s)) x + cnt (flat_map wmsg (t_writers s)) x + cnt (wmsg w') x
          + cnt (sh_list (h_queue (t_shared s)) (t_shared s)) x + cnt (drop i (sh_list o (t_shared s))) x)%nat).
      { intros w'. pose proof (wstep_live limit w' (t_shared s) (RIter o i) x A2) as H. unfold left_ in H. cbn [robj] in H.
        destruct (wstep_frame limit w' (t_shared s)) as (B1 & B2 & B3 & B4). rewrite B4. lia. }
      specialize (Hw w). destruct w; cbn [rstep]; try (destruct (wstep limit _ (t_shared s)) as [w2 h2];
        cbn [fst snd t_shared t_reactor t_writers rmsg left_ robj] in *; unfold left_; cbn [robj]; lia).
      cbn [t_shared t_reactor t_writers rmsg left_ robj wmsg count_occ] in *. unfold left_. cbn [robj]. lia.
  - cbn [written flat_map app count_occ]. destruct (t_reactor s) eqn:Er; rewrite ?Er; [unfold left_, sh_list; cbn; lia|lia..].
  - cbn [written flat_map app count_occ]. destruct (t_reactor s) eqn:Er; rewrite ?Er; [unfold left_, sh_list; cbn; lia|lia..].
  - cbn [written flat_map app count_occ]. destruct (t_reactor s) eqn:Er; rewrite ?Er; [unfold left_, sh_list; cbn; lia|lia..].
Qed.

Lemma trun_live limit ls x : forall s, tinv s ->
  tinv (trun limit ls s) /\ (live (trun limit ls s) x <= live s x + cnt (written ls) x)%nat.
Proof.
  induction ls as [|l ls IH]; intros s H; [cbn; split; [exact H|lia]|].
  change (trun limit (l :: ls) s) with (trun limit ls (tstep limit l s)).
  destruct (IH _ (tstep_inv limit l s H)) as [B1 B2]. split; [exact B1|].
  pose proof (tstep_live limit l s x H).
  assert (written (l :: ls) = written [l] ++ written ls) as -> by (unfold written; cbn; rewrite app_nil_r; reflexivity).
  rewrite count_occ_app. lia.
Qed.
Lemma t_init_inv : tinv t_init.
Proof. split; cbn; auto. Qed.

Lemma no_duplicates limit ls : NoDup (written ls) -> NoDup (h_out (t_shared (trun limit ls t_init))).
Proof.
  intros H. apply NoDup_ListNoDup in H. apply NoDup_ListNoDup.
  apply (NoDup_count_occ Nat.eq_dec). intros x.
  destruct (trun_live limit ls x t_init t_init_inv) as [_ B].
  assert (cnt (written ls) x <= 1)%nat by (apply (NoDup_count_occ Nat.eq_dec); exact H).
  change (live t_init x) with 0%nat in B. unfold live in B. lia.
Qed.
Lemma only_written limit ls m : In m (h_out (t_shared (trun limit ls t_init))) -> In m (written ls).
Proof.
  intros H. apply (count_occ_In Nat.eq_dec) in H. apply (count_occ_In Nat.eq_dec).
  destruct (trun_live limit ls m t_init t_init_inv) as [_ B].
  change (live t_init m) with 0%nat in B. unfold live in B. lia.
Qed.

(** ** A write made while the client is ready goes out *)
Definition on_its_way (m : nat) (w : wpc) (h : shared) : Prop :=
  w = WGateway m \/ w = WTransport m \/ w = WSend m \/ w = WDone /\ In m (h_out h).
Lemma wstep_out limit w h m : In m (h_out h) -> In m (h_out (snd (wstep limit w h))).
Proof. intros H. destruct w; cbn; auto. apply in_or_app. left. exact H. Qed.
Lemma rstep_frame limit r h :
  h_gateway (snd (rstep limit r h)) = h_gateway h /\ h_transport (snd (rstep limit r h)) = h_transport h /\
  (forall m, In m (h_out h) -> In m (h_out (snd (rstep limit r h)))).
Proof.
  assert (Hw : forall o i w, let x := (let '(w', h') := wstep limit w h in (RWrite o i w', h')) in
    h_gateway (snd x) = h_gateway h /\ h_transport (snd x) = h_transport h /\
    (forall m, In m (h_out h) -> In m (h_out (snd x)))).
  { intros o i w x. subst x. destruct (wstep_frame limit w h) as (B1 & B2 & _). pose proof (wstep_out limit w h) as B3.
    destruct (wstep limit w h) as [w' h']. cbn in *. auto. }
  destruct r as [| |o|o i|o i w]; cbn [rstep]; auto.
  - destruct (_ !! i); auto.
  - destruct w; try apply Hw. cbn. auto.
Qed.
Lemma ready_step limit l s i m w :
  h_gateway (t_shared s) = true -> h_transport (t_shared s) = true -> l <> TDisconnect ->
  t_writers s !! i = Some w -> on_its_way m w (t_shared s) ->
  h_gateway (t_shared (tstep limit l s)) = true /\ h_transport (t_shared (tstep limit l s)) = true /\
  exists w', t_writers (tstep limit l s) !! i = Some w' /\ on_its_way m w' (t_shared (tstep limit l s)).
Proof.
  intros Hg Ht Hl Hi Hw. unfold on_its_way in *. destruct l as [m'|j| | | |]; cbn [tstep].
  - cbn. split; [exact Hg|]. split; [exact Ht|]. exists w. split; [apply lookup_app_l_Some, Hi|exact Hw].
  - destruct (t_writers s !! j) as [wj|] eqn:Ej; [|eauto].
    destruct (wstep_frame limit wj (t_shared s)) as (B1 & B2 & _). pose proof (wstep_out limit wj (t_shared s) m) as B3.
    destruct (decide (j = i)) as [->|Hne].
    + rewrite Hi in Ej. injection Ej as <-. destruct Hw as [-> |[-> |[-> |[-> Hin]]]]; cbn in *; rewrite ?Hg, ?Ht.
      * split; [reflexivity|]. split; [reflexivity|]. eexists. split; [apply list_lookup_insert; eapply lookup_lt_Some; eauto|]. auto.
      * split; [reflexivity|]. split; [reflexivity|]. eexists. split; [apply list_lookup_insert; eapply lookup_lt_Some; eauto|]. auto.
      * split; [reflexivity|]. split; [reflexivity|]. eexists. split; [apply list_lookup_insert; eapply lookup_lt_Some; eauto|].
        right. right. right. split; [reflexivity|]. cbn. apply in_or_app. right. left. reflexivity.
      * split; [reflexivity|]. split; [reflexivity|]. eexists. split; [apply list_lookup_insert; eapply lookup_lt_Some; eauto|]. auto 10.
    + destruct (wstep limit wj (t_shared s)) as [wj' h']. cbn in *. rewrite B1, B2. split; [exact Hg|]. split; [exact Ht|].
      exists w. rewrite list_lookup_insert_ne by exact Hne. split; [exact Hi|].
      destruct Hw as [H|[H|[H|[H1 H2]]]]; auto 10.
  - destruct (rstep_frame limit (t_reactor s) (t_shared s)) as (B1 & B2 & B3).
    destruct (rstep limit (t_reactor s) (t_shared s)) as [r' h']. cbn in *. rewrite B1, B2.
    split; [exact Hg|]. split; [exact Ht|]. exists w. split; [exact Hi|].
    destruct Hw as [H|[H|[H|[H1 H2]]]]; auto 10.
  - destruct (t_reactor s); cbn; eauto 10.
  - destruct (t_reactor s); cbn; eauto 10.
  - congruence.
Qed.
Lemma ready_run limit ls i m : forall s w,
  h_gateway (t_shared s) = true -> h_transport (t_shared s) = true -> ~ In TDisconnect ls ->
  t_writers s !! i = Some w -> on_its_way m w (t_shared s) ->
  exists w', t_writers (trun limit ls s) !! i = Some w' /\ on_its_way m w' (t_shared (trun limit ls s)).
Proof.
  induction ls as [|l ls IH]; intros s w Hg Ht Hn Hi Hw; [cbn; eauto|].
  destruct (ready_step limit l s i m w Hg Ht) as (A1 & A2 & w' & A3 & A4); auto.
  - intros ->. apply Hn. left. reflexivity.
  - apply (IH (tstep limit l s) w'); auto. intros H. apply Hn. right. exact H.
Qed.

(** ** A stranded message leaves at the next connection *)
Lemma drain_from limit o ws i : forall h,
  h_gateway h = true -> h_transport h = true ->
  exists n, trun limit (repeat TReactor n) (TSys h (RIter o i) ws)
          = TSys (Sh true true (h_lists h) (h_queue h) (h_out h ++ drop i (sh_list o h))) RIdle ws.
Proof.
  assert (Hd : forall k i h, (length (sh_list o h) - i)%nat = k -> h_gateway h = true -> h_transport h = true ->
    exists n, trun limit (repeat TReactor n) (TSys h (RIter o i) ws)
          = TSys (Sh true true (h_lists h) (h_queue h) (h_out h ++ drop i (sh_list o h))) RIdle ws).
  2: { intros h. apply (Hd _ i h eq_refl). }
  induction k as [|k IH]; clear i; intros i h Hk Hg Ht.
  - exists 1%nat. cbn. rewrite (lookup_ge_None_2 (sh_list o h) i) by lia. rewrite (drop_ge (sh_list o h)) by lia.
    rewrite app_nil_r. destruct h; cbn in *; subst; reflexivity.
  - destruct (sh_list o h !! i) as [m|] eqn:Em; [|apply lookup_ge_None in Em; lia].
    destruct (IH (S i) (Sh true true (h_lists h) (h_queue h) (h_out h ++ [m]))) as [n Hn]; [|reflexivity|reflexivity|].
    { change (sh_list o (Sh true true (h_lists h) (h_queue h) (h_out h ++ [m]))) with (sh_list o h). lia. }
    exists (5 + n)%nat. change (repeat TReactor (5 + n)) with (repeat TReactor 5 ++ repeat TReactor n).
    unfold trun in *. rewrite fold_left_app. cbn [repeat fold_left tstep t_shared t_reactor t_writers rstep].
    rewrite Em. cbn [tstep t_shared t_reactor t_writers rstep wstep]. rewrite Hg.
    cbn [tstep t_shared t_reactor t_writers rstep wstep]. rewrite Ht.
    cbn [tstep t_shared t_reactor t_writers rstep wstep]. rewrite Hg, Ht, Hn.
    change (sh_list o (Sh true true (h_lists h) (h_queue h) (h_out h ++ [m]))) with (sh_list o h).
    cbn [h_lists h_queue h_out]. rewrite (drop_S _ m i Em), <- app_assoc. reflexivity.
Qed.
Lemma drain limit ls : let s := trun limit ls t_init in
  t_reactor s = RIdle -> h_gateway (t_shared s) = true ->
  exists n, let s' := trun limit (TConnect :: repeat TReactor n) s in
  t_reactor s' = RIdle /\ sh_list (h_queue (t_shared s')) (t_shared s') = [] /\
  h_out (t_shared s') = h_out (t_shared s) ++ sh_list (h_queue (t_shared s)) (t_shared s).
Proof.
  intros s Hr Hg. assert (Hi : tinv s) by (apply (trun_live limit ls 0 t_init t_init_inv)).
  set (h := t_shared s) in *.
  pose proof (ti_cur _ Hi) as Hc. fold h in Hc.
  set (h1 := Sh true true (h_lists h ++ [[]]) (length (h_lists h)) (h_out h)).
  destruct (drain_from limit (h_queue h) (t_writers s) 0 h1 eq_refl eq_refl) as [n Hn].
  exists (2 + n)%nat. cbn zeta.
  assert (He : trun limit (TConnect :: repeat TReactor (2 + n)) s
    = trun limit (repeat TReactor n) (TSys h1 (RIter (h_queue h) 0) (t_writers s))).
  { unfold trun. cbn [Nat.add repeat fold_left]. cbn [tstep]. rewrite Hr. cbn [t_shared t_reactor t_writers rstep].
    fold h. cbn [h_lists h_queue h_out h_gateway h_transport]. rewrite Hg. reflexivity. }
  rewrite He, Hn. cbn [t_reactor t_shared h_queue h_out]. split; [reflexivity|].
  assert (sh_list (h_queue h) h1 = sh_list (h_queue h) h) as ->.
  { unfold sh_list, h1. cbn [h_lists]. rewrite lookup_app_l by lia. reflexivity. }
  rewrite drop_0. split; [|reflexivity].
  unfold sh_list, h1. cbn [h_lists h_queue]. rewrite lookup_app_r by lia. rewrite Nat.sub_diag. reflexivity.
Qed.
Lemma ready_writes limit before after m :
  let s := trun limit before t_init in
  h_gateway (t_shared s) = true -> h_transport (t_shared s) = true -> ~ In TDisconnect after ->
  let s' := trun limit after (tstep limit (TCall m) s) in
  exists w, t_writers s' !! length (t_writers s) = Some w /\ (w = WDone -> In m (h_out (t_shared s'))).
Proof.
  intros s Hg Ht Hn s'.
  destruct (ready_run limit after (length (t_writers s)) m (tstep limit (TCall m) s) (WGateway m)) as (w & H1 & H2).
  - exact Hg.
  - exact Ht.
  - exact Hn.
  - cbn. rewrite lookup_app_r by lia. rewrite Nat.sub_diag. reflexivity.
  - left. reflexivity.
  - exists w. split; [exact H1|]. intros ->. destruct H2 as [H|[H|[H|[_ H]]]]; try discriminate. exact H.
Qed.
