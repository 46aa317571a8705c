(** A daemon whose routing rules redirect to other daemons: Daemon.v with the redirects
    moved only by what can happen to them (router.py:92-160, protocol.py:78-223). *)
From Verif Require Import Base Num Env Metrics Gen Processor Client Router Server Daemon.

(** What happens to a redirect apart from texts written by the rules: the resolver answers
    (protocol.py:207-216), the datagram protocol is started and stopped (protocol.py:41-47), the
    reactor makes a scheduled write (protocol.py:97-111), the TCP factory builds the protocol
    of a new connection (router.py:99-108), the transport pauses and resumes it
    (router.py:133-148). *)
Inductive kevent :=
| KResolved (ip : str) | KStart (t : nat) | KStop | KTurn
| KBuild | KPause (now : Z) | KResume (now : Z).
Definition link_step (N : unet) (e : kevent) (l : rlink) : rlink :=
  match l with
  | LUdp u =>
      let go e := LUdp (fst (ustep N redirect_cfg e u)) in
      match e with
      | KResolved ip => go (EResolved ip)
      | KStart t => go (EConnect (Some t))
      | KStop => go EDisconnect
      | KTurn => go ETurn
      | _ => l
      end
  | LTcp f =>
      match e with
      | KBuild => LTcp (tf_build f)
      | KPause now => LTcp (fst (on_proto (tp_pause now) f))
      | KResume now => LTcp (fst (on_proto (tp_resume now) f))
      | _ => l
      end
  end.

Section relay.
Context `{NN : Num} {S : Type} (G : engine).
Context (inner : str -> str -> str -> list str -> M S unit) (fl : gen S) (rs : list (rule G)).
Context (cfg : mon) (max : nat) (closes : bool) (refuses : nat -> dp -> option exn).
(** [N i]: what the transport of redirect [i] does *)
Context (N : nat -> unet).

(** as [devent], but [FLink i e]: [e] happens to redirect [i] *)
Inductive fevent :=
| FNet (e : sevent) | FOwn (m : str) | FFlush | FStep (i : nat) | FLink (i : nat) (e : kevent).
Definition d_links (d : @daemon NN S) : list rlink := r_links (v_proc (d_srv d)).
Definition fdevent (d : @daemon NN S) (e : fevent) : list devent :=
  match e with
  | FNet e => [DNet e]
  | FOwn m => [DInternal m]
  | FFlush => [DFlush]
  | FStep i => [DStep i]
  | FLink i e => match d_links d !! i with Some l => [DLink i (link_step (N i) e l)] | None => [] end
  end.
Definition fstep (d : @daemon NN S) (e : fevent) : @daemon NN S :=
  drun G inner fl rs cfg max closes refuses d (fdevent d e).
Definition frun (d : @daemon NN S) (es : list fevent) : @daemon NN S := fold_left fstep es d.
End relay.
