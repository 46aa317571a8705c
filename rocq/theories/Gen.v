(** Python generators over a shared mutable state.  A generator is a tree of
    atomic actions and emissions; between two emitted items other code may run
    and change the state (txstatsd/service.py:218-233 drives flush from a
    Cooperator, so received messages are processed between two items). *)
From Verif Require Import Base Num Env Metrics.

Section gen.
Context `{NN : Num} {S : Type}.

Inductive gen : Type :=
| GRet                                   (* StopIteration: finished *)
| GRaise (e : exn)                       (* raised *)
| GAct (f : S -> S * gen)                (* runs without giving up control *)
| GEmit (ms : list dp) (k : gen).        (* for m in ms: yield m *)

Fixpoint gen_ind' (P : gen -> Prop) (HRet : P GRet) (HRaise : forall e, P (GRaise e))
  (HAct : forall f, (forall s, P (snd (f s))) -> P (GAct f))
  (HEmit : forall ms k, P k -> P (GEmit ms k)) (g : gen) : P g :=
  match g with
  | GRet => HRet
  | GRaise e => HRaise e
  | GAct f => HAct f (fun s => gen_ind' P HRet HRaise HAct HEmit (snd (f s)))
  | GEmit ms k => HEmit ms k (gen_ind' P HRet HRaise HAct HEmit k)
  end.

(** What one [next()] call can give. *)
Inductive step_out := Yielded (d : dp) (g : gen) | Finished | Raised (e : exn).

(** [next(g)]: run to the next yield. *)
Fixpoint gnext (g : gen) (s : S) : S * step_out :=
  match g with
  | GRet => (s, Finished)
  | GRaise e => (s, Raised e)
  | GAct f => match f s with (s', g') => gnext g' s' end
  | GEmit ms k => match ms with
                  | [] => gnext k s
                  | d :: ms' => (s, Yielded d (GEmit ms' k))
                  end
  end.

(** [list(g)] with nothing in between: state, items, how it ended. *)
Fixpoint grun (g : gen) (s : S) : S * list dp * option exn :=
  match g with
  | GRet => (s, [], None)
  | GRaise e => (s, [], Some e)
  | GAct f => match f s with (s', g') => grun g' s' end
  | GEmit ms k => match grun k s with (s', l, o) => (s', ms ++ l, o) end
  end.

(** [for x in xs: (visit; yield all; post)] over a container whose size is
    checked at every step, also when it is exhausted (dictionary and deque
    iterators of CPython 2.7 raise RuntimeError if it changed).
    [visit] returns [None] when the body yields nothing for this element,
    otherwise the items and what runs when the loop body is resumed.
    [n] counts the executions of [events += 1]. *)
Fixpoint giter {X : Type} (xs : list X) (unchanged : S -> bool)
  (visit : X -> S -> S * res (option (list dp * (S -> S * res unit))))
  (n : Z) (k : Z -> gen) : gen :=
  match xs with
  | [] => GAct (fun s => if unchanged s then (s, k n) else (s, GRaise RuntimeError))
  | x :: xs' =>
      GAct (fun s =>
        if negb (unchanged s) then (s, GRaise RuntimeError)
        else match visit x s with
             | (s', Exn e) => (s', GRaise e)
             | (s', Ok None) => (s', giter xs' unchanged visit n k)
             | (s', Ok (Some (ms, post))) =>
                 (s', GEmit ms (GAct (fun s2 =>
                        match post s2 with
                        | (s3, Ok _) => (s3, giter xs' unchanged visit (n + 1) k)
                        | (s3, Exn e) => (s3, GRaise e)
                        end)))
             end)
  end.

Definition no_post : S -> S * res unit := fun s => (s, Ok tt).

End gen.
Arguments gen {NN} S.
Arguments step_out {NN} S.
