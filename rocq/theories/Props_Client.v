(** Properties of the UDP clients (C43-C48).
    [urun N cfg evs (fst (uc_create cfg is_ip host uc_init))] is the client made for
    [host] after any history [evs] of writes, resolutions, connections,
    disconnections and reactor turns; [N] decides what the transport and the write
    callbacks do. *)
From Verif Require Import Base Client ClientFacts ClientThreads.

(** C43 *)
Theorem C43_fifo : forall N cfg, quiet cfg -> forall is_ip host evs,
  let s := urun N cfg evs (fst (uc_create cfg is_ip host uc_init)) in
  let a := a_run (uc_limit cfg) evs (a_init (is_ip host)) in
  map snd (u_sent s) ++ map snd (u_sched s) = a_gone a /\ u_queue s = a_waiting a.
Proof. exact fifo. Qed.
Print Assumptions C43_fifo.
Theorem C43_each_event : forall N cfg, quiet cfg -> forall is_ip host evs e,
  let s := urun N cfg evs (fst (uc_create cfg is_ip host uc_init)) in
  let s' := urun N cfg (evs ++ [e]) (fst (uc_create cfg is_ip host uc_init)) in
  all_items s' = all_items s ++
    match e with
    | EWrite it => if decide (length (u_queue s) < uc_limit cfg \/ u_gateway s <> None /\ u_transport s <> None)%nat
                   then [it] else []
    | _ => []
    end.
Proof. exact step_items. Qed.
Print Assumptions C43_each_event.
Theorem C43_order : forall N cfg, quiet cfg -> forall is_ip host evs,
  let s := urun N cfg evs (fst (uc_create cfg is_ip host uc_init)) in
  sublist (all_items s) (writes evs) /\ ((length (writes evs) <= uc_limit cfg)%nat -> all_items s = writes evs).
Proof. exact items_in_order. Qed.
Print Assumptions C43_order.
Theorem C43_turns : forall N cfg, quiet cfg -> forall is_ip host evs,
  let s := urun N cfg evs (fst (uc_create cfg is_ip host uc_init)) in
  map snd (u_sent (fst (turn N s))) = map snd (u_sent s) ++ map snd (take 1 (u_sched s)) /\
  u_sched (fst (turn N s)) = drop 1 (u_sched s).
Proof. exact turn_count. Qed.
Print Assumptions C43_turns.

(** a connect callback that counts only *)
Definition plain_cfg : ucfg := Ucfg 1000 (Some (Ccb (fun _ => []) (fun _ => None))) None.
Definition fine_net : unet := Unet (fun n => if (n =? 1)%nat then SendFails SocketError else Sent 7) (fun n => if (n =? 0)%nat then Some TypeError else None).
Definition wr (x : string) (cb : option nat) : uevent := EWrite (B x, cb).
Definition a_history : list uevent :=
  [wr "a:1|c" (Some 1%nat); EConnect (Some 5%nat); wr "b:1|c" None; EResolved (B "10.0.0.1"); wr "c:1|c" (Some 3%nat);
   ETurn; EDisconnect; wr "d:1|c" None; ETurn; EConnect (Some 6%nat); ETurn].
Definition no_ip : str -> bool := fun _ => false.
Definition any_ip : str -> bool := fun _ => true.
Example C43_case : quiet plain_cfg /\
  (let s := urun fine_net plain_cfg a_history (fst (uc_create plain_cfg no_ip (B "statsd.local") uc_init)) in
   (u_sent s, map snd (u_sched s), u_queue s) =
   ([(5%nat, B "10.0.0.1", (B "a:1|c", Some 1%nat)); (5%nat, B "10.0.0.1", (B "b:1|c", None));
     (6%nat, B "10.0.0.1", (B "c:1|c", Some 3%nat))], [(B "d:1|c", None)], [])).
Proof.
  split; [split; intros c n [= <-]; split; reflexivity|vm_compute; reflexivity].
Qed.

(** a connect callback that writes breaks the order: its write overtakes those queued *)
Theorem C43_callback_writes_refuted : exists cfg evs,
  let s := urun fine_net cfg evs (fst (uc_create cfg no_ip (B "h") uc_init)) in
  map snd (u_sched s) = [(B "second", None); (B "first", None)] /\
  writes evs = [(B "first", None)].
Proof.
  exists (Ucfg 1000 (Some (Ccb (fun _ => [(B "second", None)]) (fun _ => None))) None).
  exists [EConnect (Some 1%nat); wr "first" None; EResolved (B "1.2.3.4")]. vm_compute. split; reflexivity.
Qed.
Print Assumptions C43_callback_writes_refuted.

(** C44 *)
Theorem C44_addressed : forall N cfg, quiet cfg -> forall is_ip host evs t h it,
  In (t, h, it) (u_sent (urun N cfg evs (fst (uc_create cfg is_ip host uc_init)))) ->
  In h (known is_ip host ++ resolutions evs) /\ In t (connections evs).
Proof. exact addressed. Qed.
Print Assumptions C44_addressed.
Theorem C44_nothing_before : forall N cfg, quiet cfg -> forall is_ip host evs,
  let s := urun N cfg evs (fst (uc_create cfg is_ip host uc_init)) in
  (known is_ip host ++ resolutions evs = [] \/ connections evs = []) ->
  u_sent s = [] /\ u_sched s = [] /\ u_queue s = take (uc_limit cfg) (writes evs).
Proof. exact offline_queue. Qed.
Print Assumptions C44_nothing_before.
Example C44_case :
  resolutions [wr "a:1|c" None; EConnect (Some 5%nat); wr "b:1|c" None; ETurn] = [] /\
  u_queue (urun fine_net plain_cfg [wr "a:1|c" None; EConnect (Some 5%nat); wr "b:1|c" None; ETurn]
             (fst (uc_create plain_cfg no_ip (B "h") uc_init))) = [(B "a:1|c", None); (B "b:1|c", None)].
Proof. vm_compute. split; reflexivity. Qed.

(** C45 *)
Theorem C45_bounded : forall N cfg, quiet cfg -> forall is_ip host evs,
  (length (u_queue (urun N cfg evs (fst (uc_create cfg is_ip host uc_init)))) <= uc_limit cfg)%nat.
Proof. exact bounded. Qed.
Print Assumptions C45_bounded.
Theorem C45_earliest : forall N cfg, quiet cfg -> forall is_ip host evs,
  let s := urun N cfg evs (fst (uc_create cfg is_ip host uc_init)) in
  (known is_ip host ++ resolutions evs = [] \/ connections evs = []) ->
  u_sent s = [] /\ u_sched s = [] /\ u_queue s = take (uc_limit cfg) (writes evs).
Proof. exact offline_queue. Qed.
Print Assumptions C45_earliest.
Example C45_case :
  u_queue (urun fine_net (Ucfg 2 None None) [wr "a" None; wr "b" None; EResolved (B "1.1.1.1"); wr "c" None]
             (fst (uc_create (Ucfg 2 None None) no_ip (B "h") uc_init))) = [(B "a", None); (B "b", None)].
Proof. vm_compute. reflexivity. Qed.

(** C46 *)
Theorem C46_callbacks : forall N cfg, quiet cfg -> forall is_ip host evs,
  let s := urun N cfg evs (fst (uc_create cfg is_ip host uc_init)) in called N (u_sent s) (u_calls s).
Proof. exact called_history. Qed.
Print Assumptions C46_callbacks.
Theorem C46_each_once : forall N cfg, quiet cfg -> forall is_ip host evs,
  let s := urun N cfg evs (fst (uc_create cfg is_ip host uc_init)) in
  (forall n, n_cb N n = None) -> (forall n e, n_send N n = SendFails e -> e = OverflowError \/ e = TypeError \/ e = SocketError) ->
  map fst (u_calls s) = omap snd (map snd (u_sent s)).
Proof. exact each_once. Qed.
Print Assumptions C46_each_once.
(** the first callback raises TypeError and is called again; the second write has no
    callback and fails; the third is called once *)
Example C46_case :
  let s := urun fine_net plain_cfg a_history (fst (uc_create plain_cfg no_ip (B "statsd.local") uc_init)) in
  u_calls s = [(1%nat, Some 7); (1%nat, None); (3%nat, Some 7)].
Proof. vm_compute. reflexivity. Qed.

(** C47 *)
Theorem C47_notifications : forall cfg is_ip host evs N,
  u_connects (urun N cfg evs (fst (uc_create cfg is_ip host uc_init)))
  = (has_connect cfg * ((if is_ip host then 1 else 0) + length (resolutions evs)))%nat.
Proof. exact create_connects. Qed.
Print Assumptions C47_notifications.
(** create() resolves exactly once: a literal address is announced twice *)
Theorem C47_literal_twice : forall N cfg c is_ip host evs ip,
  uc_connect cfg = Some c -> resolutions evs = [ip] ->
  u_connects (urun N cfg evs (fst (uc_create cfg is_ip host uc_init))) = if is_ip host then 2%nat else 1%nat.
Proof. exact literal_twice. Qed.
Print Assumptions C47_literal_twice.
(** the router's UDP redirects (router.py:266-270) give a callback that may be called
    once only: for a literal address the second announcement raises *)
Definition once_cfg : ucfg := Ucfg 1000 (Some (Ccb (fun _ => []) (fun n => if (n =? 0)%nat then None else Some AlreadyCalledError))) None.
Example C47_case :
  uc_create once_cfg any_ip (B "127.0.0.1") uc_init = (fst (uc_create once_cfg any_ip (B "127.0.0.1") uc_init), Ok tt) /\
  snd (ustep fine_net once_cfg (EResolved (B "127.0.0.1")) (fst (uc_create once_cfg any_ip (B "127.0.0.1") uc_init))) = Exn AlreadyCalledError.
Proof. vm_compute. split; reflexivity. Qed.

(** C48: writes from other threads *)
Theorem C48_no_duplicates : forall limit ls, NoDup (written ls) -> NoDup (h_out (t_shared (trun limit ls t_init))).
Proof. exact no_duplicates. Qed.
Print Assumptions C48_no_duplicates.
Theorem C48_only_written : forall limit ls m, In m (h_out (t_shared (trun limit ls t_init))) -> In m (written ls).
Proof. exact only_written. Qed.
Print Assumptions C48_only_written.
(** a write that starts when the client is ready, and no disconnection follows, is
    passed to the reactor by the time it returns *)
Theorem C48_ready_writes : forall limit before after m,
  let s := trun limit before t_init in
  h_gateway (t_shared s) = true -> h_transport (t_shared s) = true -> ~ In TDisconnect after ->
  let s' := trun limit after (tstep limit (TCall m) s) in
  exists w, t_writers s' !! length (t_writers s) = Some w /\ (w = WDone -> In m (h_out (t_shared s'))).
Proof. exact ready_writes. Qed.
Print Assumptions C48_ready_writes.
(** 'every write that was queued before resolution is sent once connected' is false:
    the write has returned, the client is resolved and connected, nothing is
    running, and the message is still in the queue *)
Theorem C48_stranded_refuted : exists ls m,
  let s := trun 1000 ls t_init in
  t_reactor s = RIdle /\ Forall (eq WDone) (t_writers s) /\
  h_gateway (t_shared s) = true /\ h_transport (t_shared s) = true /\
  In m (written ls) /\ ~ In m (h_out (t_shared s)) /\
  In m (sh_list (h_queue (t_shared s)) (t_shared s)).
Proof.
  exists [TConnect; TReactor; TReactor; TReactor; TCall 1; TWriter 0; TWriter 0; TResolved; TReactor; TReactor; TReactor; TWriter 0; TWriter 0].
  exists 1%nat. vm_compute. repeat split; auto.
Qed.
Print Assumptions C48_stranded_refuted.
(** worse: the thread may append to the list the reactor has already emptied; the
    message is then nowhere, and no later connection sends it *)
Theorem C48_lost_refuted : exists ls m,
  let s := trun 1000 ls t_init in
  t_reactor s = RIdle /\ Forall (eq WDone) (t_writers s) /\
  In m (written ls) /\ ~ In m (h_out (t_shared s)) /\
  sh_list (h_queue (t_shared s)) (t_shared s) = [] /\ (length (written ls) < 1000)%nat.
Proof.
  exists [TCall 1; TWriter 0; TWriter 0; TWriter 0; TConnect; TReactor; TReactor; TReactor; TWriter 0].
  exists 1%nat. vm_compute. repeat split; auto; try lia.
Qed.
Print Assumptions C48_lost_refuted.
(** what is in the queue leaves at the next connection *)
Theorem C48_next_connection : forall limit ls, let s := trun limit ls t_init in
  t_reactor s = RIdle -> h_gateway (t_shared s) = true ->
  exists n, let s' := trun limit (TConnect :: repeat TReactor n) s in
  t_reactor s' = RIdle /\ sh_list (h_queue (t_shared s')) (t_shared s') = [] /\
  h_out (t_shared s') = h_out (t_shared s) ++ sh_list (h_queue (t_shared s)) (t_shared s).
Proof. exact drain. Qed.
Print Assumptions C48_next_connection.
