(** When the redirects are ready (C96). *)
From Verif Require Import Base StrFacts LineSpec Client ClientFacts Router RouterSpec RouterFacts RouterProps Links LinkFacts.

(** C96.  [rws] is what the lines of the routing configuration say, [es] anything that
    happens: connections made, lost addresses resolved, texts written, callbacks run.
    There is one redirect per redirecting rule, of the rule's kind, host and port. *)
Theorem C96_redirects : forall (G : engine) config rws ls rs is_ip (N : unet) es i (tcp : bool) (h port : str),
  build_rules G true config [] = (ls, Ok rs) -> rules_of config rws -> redirects_of rws !! i = Some (tcp, h, port) ->
  exists p, int_text port p /\ ls !! i = Some (tcp, h, p) /\
    if tcp then exists f, l_links (lrun N (links_new is_ip ls) es) !! i = Some (LTcp f)
    else exists u, l_links (lrun N (links_new is_ip ls) es) !! i = Some (LUdp u).
Proof. intros. eapply config_kind; eassumption. Qed.
Print Assumptions C96_redirects.

(** ready has a result ([l_wait] is empty) only when each redirect is up: a connection of
    the TCP redirect was made, the host of the UDP redirect is an address or was resolved *)
Theorem C96_not_before : forall (G : engine) config rws ls rs is_ip (N : unet) es,
  build_rules G true config [] = (ls, Ok rs) -> rules_of config rws ->
  l_wait (lrun N (links_new is_ip ls) es) = [] ->
  forall i (tcp : bool) (h port : str), redirects_of rws !! i = Some (tcp, h, port) ->
  if tcp then In (LConnected i) es else is_ip h = true \/ exists ip, In (LUdpEvent i (EResolved ip)) es.
Proof. intros G config rws ls rs is_ip N es Hb Hr H. exact (config_ready_only G config rws ls rs is_ip N Hb Hr es H). Qed.
Print Assumptions C96_not_before.
(** and then it has, as soon as the reactor has run the callbacks *)
Theorem C96_ready : forall (G : engine) config rws ls rs is_ip (N : unet) es,
  build_rules G true config [] = (ls, Ok rs) -> rules_of config rws ->
  (forall i (tcp : bool) (h port : str), redirects_of rws !! i = Some (tcp, h, port) ->
     if tcp then In (LConnected i) es else is_ip h = true \/ exists ip, In (LUdpEvent i (EResolved ip)) es) ->
  let s := lrun N (links_new is_ip ls) es in
  l_wait (lrun N s (repeat (LRun 0) (length (l_due s)))) = [].
Proof.
  intros G config rws ls rs is_ip N es Hb Hr H s. pose proof (drained N s) as Hd. unfold s, lrun in *. rewrite <- fold_left_app in *.
  apply (config_ready_when G config rws ls rs is_ip N Hb Hr _ Hd). intros i tcp h port Hi. specialize (H i tcp h port Hi).
  unfold up. destruct tcp; [apply in_or_app; auto|]. destruct H as [H|[ip H]]; [auto|right; exists ip; apply in_or_app; auto].
Qed.
Print Assumptions C96_ready.

(** the callback of a TCP redirect is called once, however often it reconnects; that of a
    UDP redirect at each announcement, and each after the first raises *)
Theorem C96_once : forall (G : engine) config rws ls rs is_ip (N : unet) es i (tcp : bool) (h port : str),
  build_rules G true config [] = (ls, Ok rs) -> rules_of config rws -> redirects_of rws !! i = Some (tcp, h, port) ->
  occ i (l_raised (lrun N (links_new is_ip ls) es)) =
    if tcp then 0%nat else ((if is_ip h then 1 else 0) + resolved es i - 1)%nat.
Proof. intros. eapply config_raises; eassumption. Qed.
Print Assumptions C96_once.
Theorem C96_told : forall (G : engine) config rws ls rs is_ip (N : unet) es i (h port : str) ip,
  build_rules G true config [] = (ls, Ok rs) -> rules_of config rws -> redirects_of rws !! i = Some (false, h, port) ->
  exists u, l_links (lrun N (links_new is_ip ls) es) !! i = Some (LUdp u) /\
    snd (ustep N redirect_cfg (EResolved ip) u) =
      (if (0 <? (if is_ip h then 1 else 0) + resolved es i)%nat then Exn AlreadyCalledError else Ok tt).
Proof. intros. eapply config_told; eassumption. Qed.
Print Assumptions C96_told.

Definition link_config : str := B "any => redirect_tcp h 1
any => drop
any => redirect_udp u 2
any => redirect_udp 1.2.3.4 3".
Definition link_ip (h : str) : bool := str_eqb h (B "1.2.3.4").
Definition link_net : unet := Unet (fun _ => Sent 1) (fun _ => None).
Definition link_events : list levent :=
  [LText 0 (B "a:1|c"); LConnected 0; LUdpEvent 1 (EResolved (B "5.6.7.8")); LUdpEvent 2 (EResolved (B "1.2.3.4")); LConnected 0].
Example C96_case : exists rws ls rs, build_rules toy_engine true link_config [] = (ls, Ok rs) /\ rules_of link_config rws /\
  redirects_of rws = [(true, B "h", B "1"); (false, B "u", B "2"); (false, B "1.2.3.4", B "3")] /\
  let s := lrun link_net (links_new link_ip ls) link_events in
  l_wait (links_new link_ip ls) = [0; 1; 2]%nat /\
  l_due s = [0]%nat /\ l_wait s = [0; 1; 2]%nat /\ l_raised s = [2]%nat /\
  l_wait (lrun link_net s [LRun 0]) = [].
Proof.
  exists [([B "any"], [B "redirect_tcp"; B "h"; B "1"]); ([B "any"], [B "drop"]); ([B "any"], [B "redirect_udp"; B "u"; B "2"]);
          ([B "any"], [B "redirect_udp"; B "1.2.3.4"; B "3"])]. eexists. eexists.
  split; [vm_compute; reflexivity|]. split; [apply rules_by; vm_compute; reflexivity|]. repeat split; vm_compute; reflexivity.
Qed.
