(** The assembled daemon, service.py:263-370: the UDP and TCP servers give lines to the
    router (service.py:339-362), the router to the processor (service.py:289-299), the
    daemon's own statistics are written to the same router (InternalClient,
    client.py:93-105, service.py:291, 298), and StatsDService sends what the processor's
    flushes emit to carbon (service.py:336-337, 218-235). *)
From Verif Require Import Base Num Env Metrics Gen Processor Router Server.

Section daemon.
Context `{NN : Num} {S : Type} (G : engine).
(** [inner]: the processor's process_message; [fl]: its flush with the service's interval
    (router.flush is the processor's, router.py:173); [refuses n d]: the exception the
    [n]-th call of carbon_client.sendDatapoint raises for [d], if any *)
Context (inner : str -> str -> str -> list str -> M S unit) (fl : gen S) (rs : list (rule G)).
Context (cfg : mon) (max : nat) (closes : bool) (refuses : nat -> dp -> option exn).

Record daemon := Dm {
  d_conns : list conn;
  d_srv : @server (@rst S);
  d_internal : list (str * res unit);           (* lines of the daemon itself, and their outcome *)
  d_order : list str;                           (* every line given to router.process, in order *)
  d_live : list (nat * gen S);                  (* flushes being sent: number, what is left *)
  d_gone : list (gen S);                        (* what was left of flushes ended by sendDatapoint *)
  d_begun : nat;
  d_calls : list (nat * dp * option exn);       (* calls of sendDatapoint: flush, datapoint, exception *)
  d_ended : list (nat * option exn) }.
Definition d_new (addrs : list str) (links : list rlink) (p : S) : daemon :=
  Dm (map conn_new addrs) (srv_new (RSt p links [])) [] [] [] [] 0 [] [].
Definition d_proc (d : daemon) : S := r_proc (v_proc (d_srv d)).
Definition d_set_proc (p : S) (s : @server (@rst S)) : @server (@rst S) :=
  Srv (v_replies s) (v_pending s) (RSt p (r_links (v_proc s)) (r_bad (v_proc s))) (v_runs s).

Inductive devent :=
| DNet (e : sevent)           (* a datagram, a chunk of a connection, or the reactor running a pending line *)
| DInternal (m : str)         (* InternalClient.write(m) *)
| DFlush                      (* the flush task calls flushProcessor *)
| DLink (i : nat) (l : rlink) (* something happens to the [i]-th redirect (it connects, is paused, …) *)
| DStep (i : nat).            (* the Cooperator calls next() on the [i]-th flush that has not ended *)
Definition dstep (d : daemon) (e : devent) : daemon :=
  match e with
  | DNet e =>
      let '(ks, s) := sstep (r_process G inner rs) cfg max closes (d_conns d, d_srv d) e in
      let now := match e with
                 | SRun i => match v_pending (d_srv d) !! i with Some m => [m] | None => [] end
                 | _ => []
                 end in
      Dm ks s (d_internal d) (d_order d ++ now) (d_live d) (d_gone d) (d_begun d) (d_calls d) (d_ended d)
  | DInternal m =>
      let s := d_srv d in
      let '(p, r) := r_process G inner rs m (v_proc s) in
      Dm (d_conns d) (Srv (v_replies s) (v_pending s) p (v_runs s)) (d_internal d ++ [(m, r)]) (d_order d ++ [m])
         (d_live d) (d_gone d) (d_begun d) (d_calls d) (d_ended d)
  | DLink i l =>
      let s := d_srv d in
      Dm (d_conns d) (Srv (v_replies s) (v_pending s) (RSt (d_proc d) (<[i := l]> (r_links (v_proc s))) (r_bad (v_proc s))) (v_runs s))
         (d_internal d) (d_order d) (d_live d) (d_gone d) (d_begun d) (d_calls d) (d_ended d)
  | DFlush =>
      Dm (d_conns d) (d_srv d) (d_internal d) (d_order d) (d_live d ++ [(d_begun d, fl)]) (d_gone d)
         (Datatypes.S (d_begun d)) (d_calls d) (d_ended d)
  | DStep i =>
      match d_live d !! i with
      | None => d
      | Some (k, g) =>
          let '(p, x) := gnext g (d_proc d) in
          let s := d_set_proc p (d_srv d) in
          match x with
          | Yielded v g' =>
              let r := refuses (length (d_calls d)) v in
              let calls := d_calls d ++ [(k, v, r)] in
              match r with
              | None => Dm (d_conns d) s (d_internal d) (d_order d) (<[i := (k, g')]> (d_live d)) (d_gone d) (d_begun d) calls (d_ended d)
              | Some e => Dm (d_conns d) s (d_internal d) (d_order d) (delete i (d_live d)) (d_gone d ++ [g']) (d_begun d) calls
                             (d_ended d ++ [(k, Some e)])
              end
          | Finished => Dm (d_conns d) s (d_internal d) (d_order d) (delete i (d_live d)) (d_gone d) (d_begun d) (d_calls d)
                           (d_ended d ++ [(k, None)])
          | Raised e => Dm (d_conns d) s (d_internal d) (d_order d) (delete i (d_live d)) (d_gone d) (d_begun d) (d_calls d)
                           (d_ended d ++ [(k, Some e)])
          end
      end
  end.
Definition drun (d : daemon) (es : list devent) : daemon := fold_left dstep es d.
End daemon.
