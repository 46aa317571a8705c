(** Clients sharding over several daemons: ConsistentHashingClient.write (client.py:112-116)
    sends each datum to one backend, a UDP client of one daemon (client.py:44-90); the
    daemons are those of Daemon.v.  The network between them may lose, duplicate and
    reorder datagrams, and deliver them whenever it likes. *)
From Verif Require Import Base Num Env Metrics Gen Processor Router Server Daemon Hashing.

Section cluster.
Context `{NN : Num} {node : Type} `{!EqDecision node} {S : Type} (hash : str -> Z).
(** [dstep1 n]: one step of the daemon at [n]; [fresh n]: the daemon at [n] when started *)
Context (dstep1 : node -> @daemon NN S -> devent -> @daemon NN S) (fresh : node -> @daemon NN S).

Record cluster := Cl {
  c_node : node -> @daemon NN S;
  c_transit : list (node * str);          (* datagrams on their way *)
  c_lost : list (node * str);             (* datagrams the network dropped *)
  c_extra : list (node * str);            (* copies the network made *)
  c_sent : list (node * str);             (* datagrams written by the clients *)
  c_dead : list (node * @daemon NN S);    (* daemons as they were when they died *)
  c_refused : list (str * exn) }.         (* data for which write raised *)
Definition c_new : cluster := Cl fresh [] [] [] [] [] [].

(** [CWrite r data]: a client whose ring is [r] writes [data] (client.py:112-116; clients may
    have different rings, and a client's ring changes when it adds or removes backends);
    the backend's write puts the datagram on the network (client.py:83-90; a write that fails or
    is made before connect is silently dropped there: [CLose] straight after [CWrite]).
    [CArrive i from]: the [i]-th datagram on its way arrives, with source
    address [from].  [CLose i], [CCopy i]: the network drops or duplicates it.  [CLocal n e]:
    something happens inside the daemon at [n].  [CCrash n]: the process at [n] dies, at any
    point, and is started again; nothing is kept on disk (datagrams that come while it is
    down: [CLose]). *)
Inductive cevent :=
| CWrite (r : ring node) (data : str)
| CArrive (i : nat) (from : str)
| CLose (i : nat)
| CCopy (i : nat)
| CLocal (n : node) (e : devent)
| CCrash (n : node).

Definition upd (f : node -> @daemon NN S) (n : node) (d : @daemon NN S) : node -> @daemon NN S :=
  fun m => if decide (m = n) then d else f m.
Definition cstep (c : cluster) (e : cevent) : cluster :=
  match e with
  | CWrite r data =>
      match shard_write hash r data with
      | Ok l => Cl (c_node c) (c_transit c ++ l) (c_lost c) (c_extra c) (c_sent c ++ l) (c_dead c) (c_refused c)
      | Exn x => Cl (c_node c) (c_transit c) (c_lost c) (c_extra c) (c_sent c) (c_dead c) (c_refused c ++ [(data, x)])
      end
  | CArrive i from =>
      match c_transit c !! i with
      | None => c
      | Some (n, data) =>
          Cl (upd (c_node c) n (dstep1 n (c_node c n) (DNet (SDatagram from data))))
             (delete i (c_transit c)) (c_lost c) (c_extra c) (c_sent c) (c_dead c) (c_refused c)
      end
  | CLose i =>
      match c_transit c !! i with
      | None => c
      | Some x => Cl (c_node c) (delete i (c_transit c)) (c_lost c ++ [x]) (c_extra c) (c_sent c) (c_dead c) (c_refused c)
      end
  | CCopy i =>
      match c_transit c !! i with
      | None => c
      | Some x => Cl (c_node c) (c_transit c ++ [x]) (c_lost c) (c_extra c ++ [x]) (c_sent c) (c_dead c) (c_refused c)
      end
  | CLocal n e =>
      Cl (upd (c_node c) n (dstep1 n (c_node c n) e))
         (c_transit c) (c_lost c) (c_extra c) (c_sent c) (c_dead c) (c_refused c)
  | CCrash n =>
      Cl (upd (c_node c) n (fresh n))
         (c_transit c) (c_lost c) (c_extra c) (c_sent c) (c_dead c ++ [(n, c_node c n)]) (c_refused c)
  end.
Definition crun (c : cluster) (es : list cevent) : cluster := fold_left cstep es c.
End cluster.
Arguments cevent : clear implicits.
