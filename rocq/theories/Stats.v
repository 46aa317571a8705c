(** txstatsd/stats/*.py and txstatsd/metrics/histogrammetric.py *)
From Verif Require Import Base Num Env Bisect.

Section stats.
Context `{NN : Num}.

(** ** txstatsd/stats/ewma.py *)

(** stats/ewma.py:63-74, fields of Ewma.  [uncounted] starts as the int 0. *)
Record ewma := Ewma {
  ew_alpha : num; ew_interval : num; ew_init : bool; ew_rate : num; ew_uncounted : num }.
Definition ewma_new (alpha interval : num) : ewma := Ewma alpha interval false n0 n0.
(** stats/ewma.py:76-78 *)
Definition ewma_update (e : ewma) (n : num) : ewma :=
  Ewma (ew_alpha e) (ew_interval e) (ew_init e) (ew_rate e) (nadd (ew_uncounted e) n).
(** stats/ewma.py:80-89; uncounted is cleared before the division can raise *)
Definition ewma_tick (e : ewma) : ewma * res unit :=
  let count := ew_uncounted e in
  match pydiv count (ew_interval e) with
  | Exn x => (Ewma (ew_alpha e) (ew_interval e) (ew_init e) (ew_rate e) n0, Exn x)
  | Ok instant =>
      let rate := if ew_init e
                  then nadd (ew_rate e) (nmul (ew_alpha e) (nsub instant (ew_rate e)))
                  else instant in
      (Ewma (ew_alpha e) (ew_interval e) true rate n0, Ok tt)
  end.

(** ** txstatsd/stats/uniformsample.py *)

Record usample := USample { us_values : list num; us_count : Z }.
(** uniformsample.py:36-45 *)
Definition us_new (size : nat) : usample := USample (replicate size n0) 0.
(** uniformsample.py:47-49 *)
Definition us_clear (u : usample) : usample := USample (replicate (length (us_values u)) n0) 0.
(** uniformsample.py:51-53 *)
Definition us_size (u : usample) : Z :=
  if us_count u >? Z.of_nat (length (us_values u)) then Z.of_nat (length (us_values u))
  else us_count u.
(** uniformsample.py:55-62; [r] is the result of randint(1, maxint), drawn only
    in the else branch *)
Definition us_update (E : env) (u : usample) (v : num) (w : world) : usample * world :=
  let c := us_count u + 1 in
  if c <=? Z.of_nat (length (us_values u))
  then (USample (<[Z.to_nat (c - 1) := v]> (us_values u)) c, w)
  else let '(r0, w') := randint E w in
       let r := r0 mod c in
       if r <? Z.of_nat (length (us_values u))
       then (USample (<[Z.to_nat r := v]> (us_values u)) c, w')
       else (USample (us_values u) c, w').
(** uniformsample.py:64-66 *)
Definition us_get (u : usample) : list num := take (Z.to_nat (us_size u)) (us_values u).

(** ** txstatsd/metrics/histogrammetric.py *)

Record hist := Hist {
  h_sample : usample;
  h_min : option num; h_max : option num; h_sum : num;
  h_var : num * num;             (* self.variance = [M, S] *)
  h_count : Z }.

Definition minus_one : num := nofZ (-1).

(** histogrammetric.py:82-89 *)
Definition h_clear (h : hist) : hist :=
  Hist (us_clear (h_sample h)) None None n0 (minus_one, n0) 0.
(** histogrammetric.py:60-80 *)
Definition h_new (s : usample) : hist :=
  h_clear (Hist s (Some n0) (Some n0) n0 (minus_one, n0) 0).

(** histogrammetric.py:123-129.  With count > 0 the stored extremum is never
    None (set by the first update); the [None] arm is unreachable. *)
Definition h_get_min (h : hist) : num :=
  if h_count h >? 0 then match h_min h with Some m => m | None => n0 end else n0.
Definition h_get_max (h : hist) : num :=
  if h_count h >? 0 then match h_max h with Some m => m | None => n0 end else n0.

(** histogrammetric.py:131-133 *)
Definition h_mean (h : hist) : num :=
  if h_count h >? 0 then ndiv (h_sum h) (nofZ (h_count h)) else n0.
(** histogrammetric.py:197-200 *)
Definition h_variance (h : hist) : num :=
  if h_count h <=? 1 then n0 else ndiv (snd (h_var h)) (nofZ (h_count h - 1)).
(** histogrammetric.py:135-137 *)
Definition h_stddev (h : hist) : res num :=
  if h_count h >? 0 then nsqrt (h_variance h) else Ok n0.

(** histogrammetric.py:214-230; [c] is self.count (already incremented) *)
Definition update_variance (c : Z) (old : num * num) (value : num) : num * num :=
  if neqb (fst old) minus_one then (value, n0)
  else
    let old_m := fst old in
    let old_s := snd old in
    let new_m := nadd old_m (ndiv (nsub value old_m) (nofZ c)) in
    let new_s := nadd old_s (nmul (nsub value old_m) (nsub value new_m)) in
    (new_m, new_s).

(** histogrammetric.py:91-101 with set_max/set_min (202-212) inlined: after the
    first update self.max() is the stored value because count > 0 *)
Definition h_update (E : env) (h : hist) (v : num) (w : world) : hist * world :=
  let c := h_count h + 1 in
  let '(s, w') := us_update E (h_sample h) v w in
  let mx := match h_max h with None => v | Some _ =>
              pymax (if c >? 0 then match h_max h with Some m => m | None => n0 end else n0) v end in
  let mn := match h_min h with None => v | Some _ =>
              pymin (if c >? 0 then match h_min h with Some m => m | None => n0 end else n0) v end in
  (Hist s (Some mn) (Some mx) (nadd (h_sum h) v) (update_variance c (h_var h) v) c, w').

(** histogrammetric.py:150-161, one percentile of the sorted sample [values] *)
Definition percentile_of (values : list num) (p : num) : res num :=
  let n := Z.of_nat (length values) in
  let pos := nmul p (nofZ (n + 1)) in
  if nltb pos (nofZ 1) then
    match values !! 0%nat with Some v => Ok v | None => Exn IndexError end
  else if nleb (nofZ n) pos then
    match last values with Some v => Ok v | None => Exn IndexError end
  else
    match ntrunc pos with
    | Exn e => Exn e
    | Ok i =>
        (* pos >= 1 here, so i >= 1 and i - 1 is a valid non-negative index *)
        match values !! Z.to_nat (i - 1), values !! Z.to_nat i with
        | Some lower, Some upper =>
            Ok (nadd lower (nmul (nsub pos (nfloor pos)) (nsub upper lower)))
        | _, _ => Exn IndexError
        end
    end.

Fixpoint map_res {A C} (f : A -> res C) (l : list A) : res (list C) :=
  match l with
  | [] => Ok []
  | x :: l' => match f x with
               | Exn e => Exn e
               | Ok y => match map_res f l' with Exn e => Exn e | Ok ys => Ok (y :: ys) end
               end
  end.

(** histogrammetric.py:139-163 *)
Definition h_percentiles (h : hist) (ps : list num) : res (list num) :=
  if h_count h >? 0
  then map_res (percentile_of (nsort (us_get (h_sample h)))) ps
  else Ok (map (fun _ => n0) ps).

(** builtin max(values)/min(values) of a non-empty list *)
Definition list_max (l : list num) : res num :=
  match l with [] => Exn ValueError | x :: l' => Ok (fold_left pymax l' x) end.
Definition list_min (l : list num) : res num :=
  match l with [] => Exn ValueError | x :: l' => Ok (fold_left pymin l' x) end.

(** histogrammetric.py:185-190, one pass of the loop *)
Fixpoint bin_values (values : list num) (mn range : num) (n_bins : Z) (scores : list num)
  : res (list num) :=
  match values with
  | [] => Ok scores
  | v :: vs =>
      match pydiv (nsub v mn) range with
      | Exn e => Exn e
      | Ok q =>
          match ntrunc (nmul q (nofZ n_bins)) with
          | Exn e => Exn e
          | Ok pos0 =>
              let pos := if pos0 =? n_bins then pos0 - 1 else pos0 in
              (* a negative python index counts from the end *)
              let idx := if pos <? 0 then pos + Z.of_nat (length scores) else pos in
              if (0 <=? idx) then
                match scores !! Z.to_nat idx with
                | None => Exn IndexError
                | Some old => bin_values vs mn range n_bins (<[Z.to_nat idx := nadd old n1]> scores)
                end
              else Exn IndexError
          end
      end
  end.

(** histogrammetric.py:165-191.  math.ceil(1 + math.log(count, 2)) is computed
    exactly as 1 + ceil(log2 count) (floats may be off by one for huge counts). *)
Definition h_histogram (h : hist) : res (list num) :=
  if negb (h_count h >? 0) then Ok (replicate 10 n0)
  else
    let n_bins := 1 + Z.log2_up (h_count h) in
    let values := us_get (h_sample h) in
    match list_max values, list_min values with
    | Ok mx, Ok mn => bin_values values mn (nsub mx mn) n_bins (replicate (Z.to_nat n_bins) n0)
    | Exn e, _ => Exn e
    | _, Exn e => Exn e
    end.

(** python objects met when a sequence is unpacked into two names *)
Inductive obj := ONum (x : num) | OTuple2 (a b : obj) | OStr (s : str).
(** [a, b = o]: a number is not iterable; a string or a tuple is unpacked when it has two elements *)
Definition unpack2 (o : obj) : res (obj * obj) :=
  match o with
  | ONum _ => Exn TypeError
  | OTuple2 a b => Ok (a, b)
  | OStr [c; d] => Ok (OStr [c], OStr [d])
  | OStr _ => Exn ValueError
  end.
(** histogrammetric.py:107-117, the dictionary of what is reported (in the order
    it is written; iteration order does not matter below as it is not empty) *)
Definition h_items (h : hist) (stddev : num) (ps : list num) : list (str * num) :=
  [(B ".min", h_get_min h); (B ".max", h_get_max h); (B ".mean", h_mean h); (B ".stddev", stddev)] ++
  zip [B ".median"; B ".75percentile"; B ".95percentile"; B ".98percentile"; B ".99percentile"; B ".999percentile"] ps.
(** histogrammetric.py:119-121: [for item, value in ...: metrics.append((self.prefix
    + self.name + item, value, timestamp))]; the class has no attribute [name] *)
Definition h_report_loop (values : list obj) : res (list (str * num)) :=
  match values with
  | [] => Ok []
  | v :: _ => match unpack2 v with
              | Exn e => Exn e
              | Ok _ => Exn AttributeError
              end
  end.
(** histogrammetric.py:103-121; the loop is over [items.itervalues()] *)
Definition h_report (h : hist) : res (list (str * num)) :=
  match h_percentiles h [nlit (FDec false 5 (-1)); nlit (FDec false 75 (-2));
                         nlit (FDec false 95 (-2)); nlit (FDec false 98 (-2));
                         nlit (FDec false 99 (-2)); nlit (FDec false 999 (-3))] with
  | Exn e => Exn e
  | Ok ps => match h_stddev h with
             | Exn e => Exn e
             | Ok sd => h_report_loop (map (fun kv => ONum (snd kv)) (h_items h sd ps))
             end
  end.

(** ** txstatsd/stats/exponentiallydecayingsample.py *)

(** Elements are kept with the tuple order (priority, value). *)
Record esample := ESample {
  es_values : list (num * num);   (* (priority, value), ascending *)
  es_count : Z;
  es_start : num;
  es_next : num }.

(** python comparison of 2-tuples of floats *)
Definition pair_ltb (a b : num * num) : bool :=
  if neqb (fst a) (fst b) then nltb (snd a) (snd b) else nltb (fst a) (fst b).
(** exponentiallydecayingsample.py:91,94,130, [insort(values, (priority, value))] *)
Definition insort (x : num * num) (l : list (num * num)) : list (num * num) := insort_by pair_ltb x l.

Section eds.
Context (expf : num -> num) (alpha : num) (size : Z).

Definition rescale_threshold : num := nofZ 600.

(** exponentiallydecayingsample.py:62-67; [t1], [t2] are the two clock readings *)
Definition es_clear (t1 t2 : num) : esample :=
  ESample [] 0 t1 (nadd t2 rescale_threshold).

(** exponentiallydecayingsample.py:69-70 *)
Definition es_size (s : esample) : Z := Z.min size (es_count s).

(** exponentiallydecayingsample.py:100-131 *)
Definition es_rescale (now : num) (s : esample) : esample :=
  let factor := expf (nmul (nsub n0 alpha) (nsub now (es_start s))) in
  ESample (fold_left (fun acc kv => insort (nmul (fst kv) factor, snd kv) acc) (es_values s) [])
          (es_count s) now (nadd now rescale_threshold).

(** exponentiallydecayingsample.py:72-95; [ts] is the timestamp (given, or read
    from the clock), [rnd] the result of random() *)
Definition es_update (s0 : esample) (value ts rnd : num) : esample * res unit :=
  let s := if nleb (es_next s0) ts then es_rescale ts s0 else s0 in
  match pydiv (expf (nmul alpha (nsub ts (es_start s)))) rnd with
  | Exn e => (s, Exn e)
  | Ok priority =>
      if es_count s <? size
      then (ESample (insort (priority, value) (es_values s)) (es_count s + 1) (es_start s) (es_next s), Ok tt)
      else match es_values s with
           | [] => (s, Exn IndexError)
           | least :: _ =>
               if nltb (fst least) priority
               then (ESample (tl (insort (priority, value) (es_values s)))
                             (es_count s) (es_start s) (es_next s), Ok tt)
               else (s, Ok tt)
           end
  end.

(** exponentiallydecayingsample.py:97-98 *)
Definition es_get (s : esample) : list num := map snd (es_values s).
End eds.

End stats.
