(** txstatsd/hashing.py and the sharding client of txstatsd/client.py *)
From Verif Require Import Base Bisect.

Section ring.
(** A node is any hashable object: [label] is what ["%s" % node] gives, [nlt]
    is python's [<] between two nodes, [hash] is the number made of the first 8
    hex digits of the md5 of a byte string (abstract: any function). *)
Context {node : Type} `{!EqDecision node}.
Context (label : node -> str) (nlt : node -> node -> bool) (hash : str -> Z).

Record ring := Ring {
  r_ring : list (Z * node);
  r_nodes : list node;        (* the set self.nodes, without repetition *)
  r_count : nat }.            (* replica_count *)

(** python comparison of the tuples [(position, node)] *)
Definition entry_ltb (a b : Z * node) : bool :=
  if fst a =? fst b then (if decide (snd a = snd b) then false else nlt (snd a) (snd b))
  else fst a <? fst b.
(** comparison with the tuple [(position, None)]; in python 2 [None] is smaller
    than every other object *)
Definition below (p : Z) (a : Z * node) : bool :=
  if fst a =? p then false else fst a <? p.

(** hashing.py:46, [bisect.insort(self.ring, entry)] *)
Definition insort_entry (x : Z * node) (a : list (Z * node)) : list (Z * node) := insort_by entry_ltb x a.
(** [bisect.bisect_left(a, (p, None))] *)
Definition bisect_left (p : Z) (a : list (Z * node)) : nat :=
  bsearch (length a)
    (fun mid => match a !! mid with Some y => negb (below p y) | None => false end)
    0 (length a).

Definition is_ascii (c : ascii) : bool := code c <? 128.

(** hashing.py:35-38.  [key.encode('utf-8')] of a byte string first decodes it
    as ASCII. *)
Definition compute_ring_position (key : str) : res Z :=
  if forallb is_ascii key then Ok (hash key) else Exn UnicodeDecodeError.

(** hashing.py:44, the key of replica [i]: "%s:%d" % (node, i) *)
Definition replica_key (n : node) (i : nat) : str :=
  label n ++ [c_colon] ++ show_N (N.of_nat i).

(** hashing.py:43-46, the loop body for each [i] in turn *)
Fixpoint add_replicas (n : node) (is : list nat) : M ring unit :=
  match is with
  | [] => ret tt
  | i :: is' =>
      let! position := lift_ (compute_ring_position (replica_key n i)) in
      mod_ (fun r => Ring (insort_entry (position, n) (r_ring r)) (r_nodes r) (r_count r)) ;!
      add_replicas n is'
  end.

Definition set_add (n : node) (l : list node) : list node :=
  if decide (n ∈ l) then l else l ++ [n].

(** hashing.py:40-46 *)
Definition add_node (n : node) : M ring unit :=
  mod_ (fun r => Ring (r_ring r) (set_add n (r_nodes r)) (r_count r)) ;!
  let! r := get_ in add_replicas n (seq 0 (r_count r)).

(** hashing.py:48-50 *)
Definition remove_node (n : node) : M ring unit :=
  mod_ (fun r => Ring (filter (fun e => snd e <> n) (r_ring r))
                      (filter (fun m => m <> n) (r_nodes r)) (r_count r)).

Fixpoint add_all (ns : list node) : M ring unit :=
  match ns with
  | [] => ret tt
  | n :: ns' => add_node n ;! add_all ns'
  end.
(** hashing.py:28-33 *)
Definition ring_init (ns : list node) (replica_count : nat) : ring * res unit :=
  add_all ns (Ring [] [] replica_count).

(** [x % n]: python raises for n = 0 *)
Definition pymod (x n : nat) : res nat :=
  match n with O => Exn ZeroDivisionError | _ => Ok (x mod n)%nat end.

(** hashing.py:52-58 *)
Definition get_node (r : ring) (key : str) : res node :=
  match r_ring r with
  | [] => Exn AssertionError
  | _ =>
      match compute_ring_position key with
      | Exn e => Exn e
      | Ok position =>
          match pymod (bisect_left position (r_ring r)) (length (r_ring r)) with
          | Exn e => Exn e
          | Ok index =>
              match r_ring r !! index with
              | Some entry => Ok (snd entry)
              | None => Exn IndexError
              end
          end
      end
  end.

(** hashing.py:66-71, the while loop; it runs less than [length ring] times, the
    initial [fuel] *)
Fixpoint walk (fuel : nat) (r : ring) (index last_index : nat) (nodes : list node)
  : res (list node) :=
  match fuel with
  | O => Ok nodes
  | S f =>
      if (length nodes <? length (r_nodes r))%nat && negb (index =? last_index)%nat then
        match r_ring r !! index with
        | None => Exn IndexError
        | Some next_entry =>
            let nodes' := if decide (snd next_entry ∈ nodes) then nodes
                          else nodes ++ [snd next_entry] in
            match pymod (S index) (length (r_ring r)) with
            | Exn e => Exn e
            | Ok index' => walk f r index' last_index nodes'
            end
        end
      else Ok nodes
  end.

(** hashing.py:60-72; (index - 1) % len of a python int is never negative *)
Definition get_nodes (r : ring) (key : str) : res (list node) :=
  match compute_ring_position key with
  | Exn e => Exn e
  | Ok position =>
      match pymod (bisect_left position (r_ring r)) (length (r_ring r)) with
      | Exn e => Exn e
      | Ok index =>
          match pymod (index + length (r_ring r) - 1) (length (r_ring r)) with
          | Exn e => Exn e
          | Ok last_index => walk (length (r_ring r)) r index last_index []
          end
      end
  end.

(** client.py:109-110; the default replica_count *)
Definition shard_init (clients : list node) : ring * res unit := ring_init clients 1024.

(** client.py:112-116.  The result lists the calls [client.write(data)] made;
    what a backend does with its datum is its own business. *)
Definition shard_write (r : ring) (data : str) : res (list (node * str)) :=
  match split1 c_colon data with
  | None => Exn ValueError             (* need more than 1 value to unpack *)
  | Some (metric_name, rest) =>
      match get_node r metric_name with
      | Exn e => Exn e
      | Ok client => Ok [(client, data)]
      end
  end.

(** client.py:118-126: connect()/disconnect() visit every element of the set;
    [order] is the iteration order of the set. *)
Definition shard_each (order : list node -> list node) (r : ring) : list node := order (r_nodes r).
End ring.
Arguments ring : clear implicits.
