(** python's [bisect] module *)
From Verif Require Import Base.

(** The search loop of python's [bisect] module (Lib/bisect.py of python 2.7,
    used at txstatsd/hashing.py:46,56,64 and
    txstatsd/stats/exponentiallydecayingsample.py:91,94,130): halve [lo, hi) until empty, keeping the left
    half when [p] holds at the middle.  [fuel] >= hi - lo always suffices. *)
Fixpoint bsearch (fuel : nat) (p : nat -> bool) (lo hi : nat) : nat :=
  match fuel with
  | O => lo
  | S f =>
      if (lo <? hi)%nat then
        let mid := ((lo + hi) / 2)%nat in
        if p mid then bsearch f p lo mid else bsearch f p (S mid) hi
      else lo
  end.

(** [bisect.insort(a, x)]: insert to the right of the entries not greater *)
Definition insort_by {A} (ltb : A -> A -> bool) (x : A) (a : list A) : list A :=
  let i := bsearch (length a)
             (fun mid => match a !! mid with Some y => ltb x y | None => false end)
             0 (length a) in
  take i a ++ x :: drop i a.
