(** What arrives at the server: datagrams, and CRLF-terminated lines of streams. *)
From Verif Require Import Base Server.

(** [ls] are the complete lines of the stream [w] and [r] is what follows the last one *)
Definition has_crlf (s : str) : Prop := exists a b, s = a ++ CRLF ++ b.
Definition lines_of (w : str) (ls : list str) (r : str) : Prop :=
  w = concat (map (fun l => l ++ CRLF) ls) ++ r /\ Forall (fun l => ~ has_crlf l) ls /\ ~ has_crlf r.

Section spec.
Context (max : nat).
(** [arrivals ws es out]: with the streams [ws] (peer, text so far) already received, the
    events [es] make [out] (peer, text) arrive, in this order; no line is longer than [max] *)
Inductive arrivals : list (str * str) -> list sevent -> list (str * str) -> Prop :=
| ar_end ws : arrivals ws [] []
| ar_datagram ws addr data es out : arrivals ws es out ->
    arrivals ws (SDatagram addr data :: es) ((addr, data) :: out)
| ar_chunk ws i addr w c ls r new r' es out :
    ws !! i = Some (addr, w) -> lines_of w ls r -> lines_of (w ++ c) (ls ++ new) r' ->
    Forall (fun l => (length l <= max)%nat) new -> (length r' <= max)%nat ->
    arrivals (<[i := (addr, w ++ c)]> ws) es out ->
    arrivals ws (SChunk i c :: es) (map (pair addr) new ++ out)
| ar_run ws i es out : arrivals ws es out -> arrivals ws (SRun i :: es) out.
End spec.
