(** The redirects of a router and Router.ready, router.py:73-112, 261-298. *)
From Verif Require Import Base Client Router.

(** Each redirect has a Deferred [d], fired by its connect callback (router.py:266-270,
    287-289).  [l_due]: the callbacks scheduled with callLater(0, …) by buildProtocol
    (router.py:104-106) and not yet run; [l_fired]: the Deferreds fired, in order;
    [l_wait]: the Deferreds which the callbacks of [ready] not yet run will return, the
    first being the one [ready] waits for (router.py:173, 267, 288); [l_raised]: the calls
    of d.callback that raised. *)
Record lst := LSt { l_links : list rlink; l_due : list nat; l_fired : list nat; l_wait : list nat; l_raised : list nat }.

(** a chain of callbacks, each returning one Deferred, goes on while these have fired *)
Fixpoint settle (fired wait : list nat) : list nat :=
  match wait with
  | [] => []
  | i :: wait' => if bool_decide (i ∈ fired) then settle fired wait' else i :: wait'
  end.
(** d.callback(None) of redirect [i] *)
Definition fire (i : nat) (s : lst) : lst :=
  if bool_decide (i ∈ l_fired s) then LSt (l_links s) (l_due s) (l_fired s) (l_wait s) (l_raised s ++ [i])
  else let f := l_fired s ++ [i] in LSt (l_links s) (l_due s) f (settle f (l_wait s)) (l_raised s).

(** Router.__init__: the redirect of a literal UDP host announces itself when its client
    is made (protocol.py:143-144) *)
Definition announced (l : rlink) : nat := match l with LUdp u => u_connects u | LTcp _ => 0 end.
Definition links_new (is_ip : str -> bool) (ls : list lspec) : lst :=
  let links := map (new_link is_ip) ls in
  let fired := List.filter (fun i => match links !! i with Some l => (0 <? announced l)%nat | None => false end) (seq 0 (length ls)) in
  LSt links [] fired (settle fired (seq 0 (length ls))) [].

Inductive levent :=
| LConnected (i : nat)               (* a connection of TCP redirect [i] is made: buildProtocol *)
| LRun (k : nat)                     (* the reactor runs the [k]-th of the scheduled callbacks *)
| LUdpEvent (i : nat) (e : uevent)   (* something happens to the client of UDP redirect [i] *)
| LText (i : nat) (text : str).      (* a text is written to redirect [i] *)
Definition lstep (N : unet) (s : lst) (e : levent) : lst :=
  let set i l := <[i := l]> (l_links s) in
  match e with
  | LConnected i =>
      match l_links s !! i with
      | Some (LTcp f) => LSt (set i (LTcp (tf_build f))) (if tf_callback f then l_due s ++ [i] else l_due s)
                             (l_fired s) (l_wait s) (l_raised s)
      | _ => s
      end
  | LRun k =>
      match l_due s !! k with
      | Some i => fire i (LSt (l_links s) (delete k (l_due s)) (l_fired s) (l_wait s) (l_raised s))
      | None => s
      end
  | LUdpEvent i e =>
      match l_links s !! i with
      | Some (LUdp u) =>
          let u' := fst (ustep N redirect_cfg e u) in
          let s' := LSt (set i (LUdp u')) (l_due s) (l_fired s) (l_wait s) (l_raised s) in
          if (u_connects u <? u_connects u')%nat then fire i s' else s'
      | _ => s
      end
  | LText i text =>
      match l_links s !! i with
      | Some l => LSt (set i (fst (link_write text l))) (l_due s) (l_fired s) (l_wait s) (l_raised s)
      | None => s
      end
  end.
Definition lrun (N : unet) (s : lst) (es : list levent) : lst := fold_left (lstep N) es s.
