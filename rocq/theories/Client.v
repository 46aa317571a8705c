(** txstatsd/protocol.py: the queueing UDP client.  (The plain client of
    txstatsd/client.py is in Plain.v, ConsistentHashingClient in Hashing.v.) *)
From Verif Require Import Base.

(** A write: its data and, if one was given, the number of its callback. *)
Definition item : Type := str * option nat.

(** TransportGateway, protocol.py:74-85.  Transports are numbered.  The port
    never changes and is not modelled. *)
Record gateway := Gw { g_transport : option nat; g_host : str }.

(** What the environment decides.  [n_send n]: the outcome of the [n]-th call of
    transport.write; [n_cb n]: the exception, if any, raised by the [n]-th call of
    a write callback. *)
Inductive sendres := Sent (bytes : Z) | SendFails (e : exn).
Record unet := Unet { n_send : nat -> sendres; n_cb : nat -> option exn }.

(** What the connect callback does at its [n]-th call: writes, then an exception. *)
Record ccb := Ccb { cc_writes : nat -> list item; cc_raises : nat -> option exn }.

(** Arguments of the constructor, protocol.py:116-137; [DataQueue]'s limit is 1000
    (protocol.py:54) and is kept as a parameter. *)
Record ucfg := Ucfg {
  uc_limit : nat;
  uc_connect : option ccb;
  uc_disconnect : option (nat -> option exn) }.

Record uclient := UC {
  u_transport : option nat;
  u_gateways : list gateway;            (* every gateway ever made, oldest first *)
  u_gateway : option nat;               (* index of self.transport_gateway *)
  u_queue : list item;                  (* DataQueue._queue *)
  u_sched : list (nat * item);          (* reactor calls pending: gateway, item *)
  u_sent : list (nat * str * item);     (* transport.write calls made: transport, host, item *)
  u_calls : list (nat * option Z);      (* callback calls made *)
  u_connects : nat;                     (* connect callback calls made *)
  u_disconnects : nat }.

Definition uset_queue q s := UC (u_transport s) (u_gateways s) (u_gateway s) q (u_sched s) (u_sent s) (u_calls s) (u_connects s) (u_disconnects s).
Definition uset_sched q s := UC (u_transport s) (u_gateways s) (u_gateway s) (u_queue s) q (u_sent s) (u_calls s) (u_connects s) (u_disconnects s).
Definition uadd_sent x s := UC (u_transport s) (u_gateways s) (u_gateway s) (u_queue s) (u_sched s) (u_sent s ++ [x]) (u_calls s) (u_connects s) (u_disconnects s).
Definition uadd_call x s := UC (u_transport s) (u_gateways s) (u_gateway s) (u_queue s) (u_sched s) (u_sent s) (u_calls s ++ [x]) (u_connects s) (u_disconnects s).

(** the fields set by the constructor, protocol.py:129-141 *)
Definition uc_init : uclient := UC None [] None [] [] [] [] 0 0.

(** DataQueue.write, protocol.py:58-65 *)
Definition queue_write (limit : nat) (it : item) (q : list item) : list item :=
  if (length q <? limit)%nat then q ++ [it] else q.

(** TwistedStatsDClient.write, protocol.py:195-205, with TransportGateway.write,
    protocol.py:87-95: reactor.callFromThread appends to the reactor's calls *)
Definition uc_write (cfg : ucfg) (it : item) (s : uclient) : uclient :=
  match u_gateway s, u_transport s with
  | Some g, Some _ => uset_sched (u_sched s ++ [(g, it)]) s
  | _, _ => uset_queue (queue_write (uc_limit cfg) it (u_queue s)) s
  end.

(** _flush_items, protocol.py:218-223, with DataQueue.flush, protocol.py:67-71 *)
Definition flush_items (cfg : ucfg) (s : uclient) : uclient :=
  fold_left (fun s it => uc_write cfg it s) (u_queue s) (uset_queue [] s).

(** host_resolved, protocol.py:207-216 *)
Definition run_connect (cfg : ucfg) : M uclient unit := fun s =>
  match uc_connect cfg with
  | None => (s, Ok tt)
  | Some c =>
      let n := u_connects s in
      let s1 := UC (u_transport s) (u_gateways s) (u_gateway s) (u_queue s) (u_sched s)
                   (u_sent s) (u_calls s) (S n) (u_disconnects s) in
      let s2 := fold_left (fun s it => uc_write cfg it s) (cc_writes c n) s1 in
      match cc_raises c n with
      | Some e => (s2, Exn e)
      | None => (s2, Ok tt)
      end
  end.
Definition host_resolved (cfg : ucfg) (ip : str) : M uclient unit :=
  mod_ (fun s => UC (u_transport s) (u_gateways s ++ [Gw (u_transport s) ip])
                    (Some (length (u_gateways s))) (u_queue s) (u_sched s)
                    (u_sent s) (u_calls s) (u_connects s) (u_disconnects s)) ;!
  run_connect cfg ;!
  mod_ (flush_items cfg).

(** connect, protocol.py:181-187 *)
Definition uc_connect_to (cfg : ucfg) (t : option nat) (s : uclient) : uclient :=
  let s1 :=
    match t with
    | None => s
    | Some t =>
        UC (Some t)
           (match u_gateway s with
            | None => u_gateways s
            | Some g => alter (fun gw => Gw (Some t) (g_host gw)) g (u_gateways s)
            end)
           (u_gateway s) (u_queue s) (u_sched s) (u_sent s) (u_calls s) (u_connects s) (u_disconnects s)
    end in
  flush_items cfg s1.

(** disconnect, protocol.py:189-193 *)
Definition uc_disconnect_from (cfg : ucfg) : M uclient unit :=
  (fun s => match uc_disconnect cfg with
            | None => (s, Ok tt)
            | Some f =>
                let n := u_disconnects s in
                let s1 := UC (u_transport s) (u_gateways s) (u_gateway s) (u_queue s) (u_sched s)
                             (u_sent s) (u_calls s) (u_connects s) (S n) in
                match f n with Some e => (s1, Exn e) | None => (s1, Ok tt) end
            end) ;!
  mod_ (fun s => UC None (u_gateways s) (u_gateway s) (u_queue s) (u_sched s)
                    (u_sent s) (u_calls s) (u_connects s) (u_disconnects s)).

(** the exceptions of protocol.py:109 (gaierror is a socket.error) *)
Definition caught (e : exn) : bool :=
  match e with OverflowError | TypeError | SocketError => true | _ => false end.

(** calling a write callback, protocol.py:107-108, 110-111 *)
Definition call_back (N : unet) (cb : option nat) (v : option Z) : M uclient unit := fun s =>
  match cb with
  | None => (s, Ok tt)
  | Some c =>
      let s' := uadd_call (c, v) s in
      match n_cb N (length (u_calls s)) with
      | Some e => (s', Exn e)
      | None => (s', Ok tt)
      end
  end.
Definition try_caught (m handler : M uclient unit) : M uclient unit := fun s =>
  match m s with
  | (s', Exn e) => if caught e then handler s' else (s', Exn e)
  | r => r
  end.

(** TransportGateway._write, protocol.py:97-111 *)
Definition gateway_write (N : unet) (g : gateway) (it : item) : M uclient unit :=
  try_caught
    (let! b := (fun s => match g_transport g with
               | None => (s, Exn AttributeError)
               | Some t =>
                   let s' := uadd_sent (t, g_host g, it) s in
                   match n_send N (length (u_sent s)) with
                   | SendFails e => (s', Exn e)
                   | Sent b => (s', Ok b)
                   end
               end)
     in call_back N (snd it) (Some b))
    (call_back N (snd it) None).

(** the reactor makes the first pending call *)
Definition turn (N : unet) : M uclient unit := fun s =>
  match u_sched s with
  | [] => (s, Ok tt)
  | (g, it) :: rest =>
      match u_gateways s !! g with
      | None => (s, Exn OtherError)                                (* unreachable *)
      | Some gw => gateway_write N gw it (uset_sched rest s)
      end
  end.

(** ** Histories *)
Inductive uevent :=
| EWrite (it : item)
| EResolved (ip : str)              (* the resolver calls host_resolved *)
| EConnect (t : option nat)         (* StatsDClientProtocol.startProtocol, protocol.py:41-43 *)
| EDisconnect                       (* StatsDClientProtocol.stopProtocol, protocol.py:45-47 *)
| ETurn.

Definition ustep (N : unet) (cfg : ucfg) (e : uevent) : M uclient unit :=
  match e with
  | EWrite it => mod_ (uc_write cfg it)
  | EResolved ip => host_resolved cfg ip
  | EConnect t => mod_ (uc_connect_to cfg t)
  | EDisconnect => uc_disconnect_from cfg
  | ETurn => turn N
  end.
(** an exception goes to the caller (the application, the resolver's deferred, the
    reactor) and the program goes on *)
Definition urun (N : unet) (cfg : ucfg) (evs : list uevent) (s : uclient) : uclient :=
  fold_left (fun s e => fst (ustep N cfg e s)) evs s.

(** the constructor, protocol.py:116-144.  [is_ip] is twisted's isIPAddress; the
    resolution started by [create] (protocol.py:175-177) is a later [EResolved]. *)
Definition uc_create (cfg : ucfg) (is_ip : str -> bool) (host : str) : M uclient unit := fun _ =>
  if is_ip host then host_resolved cfg host uc_init else (uc_init, Ok tt).
