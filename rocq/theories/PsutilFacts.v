(** The statistics taken from psutil: what they say and how they fail. *)
From Verif Require Import Base Num StrFacts LineSpec Process ProcessSpec ProcessFacts CounterFacts Psutil.
Open Scope Z_scope.

Lemma rbind_ok {A C} (r : res A) (f : A -> res C) y : rbind r f = Ok y <-> exists x, r = Ok x /\ f x = Ok y.
Proof. destruct r; cbn; split; [eauto|intros (x & E & H); congruence|discriminate|intros (x & E & _); discriminate]. Qed.
Lemma rbind_exn {A C} (r : res A) (f : A -> res C) e : rbind r f = Exn e <-> r = Exn e \/ exists x, r = Ok x /\ f x = Exn e.
Proof.
  destruct r; cbn; split; [eauto|intros [H|(x & E & H)]; congruence|intros [= ->]; auto|intros [[= ->]|(x & E & _)]; [reflexivity|discriminate]].
Qed.
Lemma unpack2_ok {V} (t : list V) a b : unpack2 t = Ok (a, b) <-> t = [a; b].
Proof. destruct t as [|x [|y [|z t]]]; cbn; split; intros H; try discriminate; congruence. Qed.
Lemma unpack2_exn {V} (t : list V) e : unpack2 t = Exn e <-> e = ValueError /\ length t <> 2%nat.
Proof.
  destruct t as [|x [|y [|z t]]]; cbn; (split; [intros H; first [discriminate H|injection H as <-; split; [reflexivity|discriminate]]|
    intros [-> H]; first [reflexivity|contradiction H; reflexivity]]).
Qed.
Lemma unpack4_ok {V} (t : list V) a b c d : unpack4 t = Ok (a, b, c, d) <-> t = [a; b; c; d].
Proof. destruct t as [|x [|y [|z [|w [|v t]]]]]; cbn; split; intros H; try discriminate; congruence. Qed.

Section facts.
Context {V : Type}.
Notation dict := (gmap str V).
Implicit Types (m : dict).

Lemma memory_cpu_ok (p : res (pproc V)) prefix m : get_memory_and_cpu p prefix = Ok m <->
  exists q vsize rss cpu mem more, p = Ok q /\ pp_memory_info q = Ok [vsize; rss] /\ pp_cpu_percent q = Ok cpu /\ pp_memory_percent q = Ok mem /\
    (pp_num_threads q = None /\ more = [] \/ exists t, pp_num_threads q = Some (Ok t) /\ more = [(prefix ++ B ".threads", t)]) /\
    dict_of ([(prefix ++ B ".cpu.percent", cpu); (prefix ++ B ".memory.percent", mem); (prefix ++ B ".memory.vsize", vsize);
              (prefix ++ B ".memory.rss", rss)] ++ more) m.
Proof.
  unfold get_memory_and_cpu. rewrite rbind_ok. split.
  - intros (q & -> & H). apply rbind_ok in H as ([vsize rss] & H1 & H). apply rbind_ok in H1 as (t & H0 & H1). apply unpack2_ok in H1 as ->.
    apply rbind_ok in H as (cpu & H2 & H). apply rbind_ok in H as (mem & H3 & H). cbv zeta in H.
    destruct (pp_num_threads q) as [t|] eqn:Et.
    + apply rbind_ok in H as (n & -> & H). exists q, vsize, rss, cpu, mem, [(prefix ++ B ".threads", n)].
      repeat (split; [assumption || reflexivity|]). split; [right; eauto|]. apply dict_of_fun. injection H as <-. reflexivity.
    + exists q, vsize, rss, cpu, mem, []. repeat (split; [assumption || reflexivity|]). split; [left; auto|]. apply dict_of_fun. injection H as <-. reflexivity.
  - intros (q & vsize & rss & cpu & mem & more & -> & H1 & H2 & H3 & H4 & H5). exists q. split; [reflexivity|]. rewrite H1. cbn [rbind unpack2].
    rewrite H2. cbn [rbind]. rewrite H3. cbn [rbind]. apply dict_of_fun in H5 as ->.
    destruct H4 as [[-> ->]|(t & -> & ->)]; reflexivity.
Qed.
(** the first of these that fails *)
Definition asked (p : res (pproc V)) : list (res unit) :=
  let ok {A} (r : res A) := match r with Ok _ => Ok tt | Exn e => Exn e end in
  match p with
  | Exn e => [Exn e]
  | Ok q => [ok (pp_memory_info q);
             match pp_memory_info q with Ok t => if (length t =? 2)%nat then Ok tt else Exn ValueError | Exn e => Exn e end;
             ok (pp_cpu_percent q); ok (pp_memory_percent q); match pp_num_threads q with Some t => ok t | None => Ok tt end]
  end.
Lemma first_of (l : list (res unit)) e : (exists pre post, l = pre ++ Exn e :: post /\ Forall (fun r => r = Ok tt) pre) <->
  match l with [] => False | Exn e' :: _ => e' = e | Ok _ :: l' => exists pre post, l' = pre ++ Exn e :: post /\ Forall (fun r => r = Ok tt) pre end.
Proof.
  destruct l as [|[[]|e'] l].
  - split; [intros ([|] & post & H & _); discriminate|tauto].
  - split; [intros ([|r pre] & post & H & HF); [discriminate|]; injection H as <- ->; inversion HF; eauto|].
    intros (pre & post & -> & H). exists (Ok tt :: pre), post. split; [reflexivity|]. constructor; auto.
  - split; [|intros ->; exists [], l; split; [reflexivity|constructor]].
    intros ([|r pre] & post & H & HF); [injection H as H _; exact H|]. injection H as <- ->. inversion HF; discriminate.
Qed.
Lemma memory_cpu_exn (p : res (pproc V)) prefix e : get_memory_and_cpu p prefix = Exn e <->
  exists pre post, asked p = pre ++ Exn e :: post /\ Forall (fun r => r = Ok tt) pre.
Proof.
  assert (Hx : forall e' : exn, @Exn dict e' = Exn e <-> e' = e) by (intros e'; split; [intros [= ->]; reflexivity|intros ->; reflexivity]).
  assert (Hn : forall m : dict, Ok m = Exn e <-> exists pre post, [] = pre ++ Exn e :: post /\ Forall (fun r => r = Ok tt) pre).
  { intros m. rewrite first_of. split; [discriminate|tauto]. }
  unfold get_memory_and_cpu, asked. cbv zeta. destruct p as [q|e']; cbn [rbind]; [|rewrite first_of; apply Hx].
  rewrite first_of. destruct (pp_memory_info q) as [t|e']; cbn [rbind]; [|apply Hx].
  rewrite first_of. destruct t as [|a [|b [|c t]]]; cbn [unpack2 rbind length Nat.eqb]; try apply Hx.
  rewrite first_of. destruct (pp_cpu_percent q) as [x|e']; cbn [rbind]; [|apply Hx].
  rewrite first_of. destruct (pp_memory_percent q) as [y|e']; cbn [rbind]; [|apply Hx].
  rewrite first_of. destruct (pp_num_threads q) as [[z|e']|]; cbn [rbind]; [apply Hn|apply Hx|apply Hn].
Qed.

Lemma cpu_ok (p : res (pproc V)) prefix m : get_cpu_counters p prefix = Ok m <->
  exists q user system, p = Ok q /\ pp_cpu_times q = Ok [user; system] /\
    dict_of [(prefix ++ B ".cpu.user", user); (prefix ++ B ".cpu.system", system)] m.
Proof.
  unfold get_cpu_counters. rewrite rbind_ok. split.
  - intros (q & -> & H). apply rbind_ok in H as ([u s] & H1 & H). apply rbind_ok in H1 as (t & H0 & H1). apply unpack2_ok in H1 as ->.
    exists q, u, s. repeat (split; [assumption || reflexivity|]). apply dict_of_fun. injection H as <-. reflexivity.
  - intros (q & u & s & -> & H1 & H2). exists q. split; [reflexivity|]. rewrite H1. apply dict_of_fun in H2 as ->. reflexivity.
Qed.
Lemma io_ok (p : res (pproc V)) prefix m : get_io_counters p prefix = Ok m <->
  exists q, p = Ok q /\ (pp_io_counters q = None /\ m = ∅ \/
    exists rc wc rb wb, pp_io_counters q = Some (Ok [rc; wc; rb; wb]) /\
      dict_of [(prefix ++ B ".read.count", rc); (prefix ++ B ".write.count", wc); (prefix ++ B ".read.bytes", rb); (prefix ++ B ".write.bytes", wb)] m).
Proof.
  unfold get_io_counters. rewrite rbind_ok. split.
  - intros (q & -> & H). exists q. split; [reflexivity|]. destruct (pp_io_counters q) as [t|]; [right|left; split; congruence].
    apply rbind_ok in H as ([[[rc wc] rb] wb] & H1 & H). apply rbind_ok in H1 as (t' & -> & H1). apply unpack4_ok in H1 as ->.
    exists rc, wc, rb, wb. split; [reflexivity|]. apply dict_of_fun. injection H as <-. reflexivity.
  - intros (q & -> & [[H ->]|(rc & wc & rb & wb & H & Hd)]); exists q; (split; [reflexivity|]); rewrite H; [reflexivity|].
    apply dict_of_fun in Hd as ->. reflexivity.
Qed.

Context (minus : V -> V -> V).
(** every reading but the first, with the one before it *)
Fixpoint steps {A} (x : A) (l : list A) : list (A * A) := match l with [] => [] | y :: l' => (x, y) :: steps y l' end.
Definition cpu_dict (prefix : str) (user system : V) : dict := <[prefix ++ B ".cpu.user" := user]> {[prefix ++ B ".cpu.system" := system]}.
Lemma cpu_dict_of prefix u s m : dict_of [(prefix ++ B ".cpu.user", u); (prefix ++ B ".cpu.system", s)] m <-> m = cpu_dict prefix u s.
Proof.
  rewrite dict_of_fun. cbn [add_all fold_left]. unfold cpu_dict. rewrite <- insert_empty.
  rewrite (insert_commute _ (prefix ++ B ".cpu.user")); [reflexivity|]. intros H. apply app_inv_head in H. discriminate.
Qed.
Lemma cpu_diff prefix u s u' s' : differences minus (cpu_dict prefix u' s') (cpu_dict prefix u s) = Ok (cpu_dict prefix (minus u' u) (minus s' s)).
Proof.
  apply differences_ok. split.
  - intros k [x Hx]. unfold cpu_dict in *. apply lookup_insert_Some in Hx as [[<- _]|[Hn Hx]]; [rewrite lookup_insert; eauto|].
    apply lookup_singleton_Some in Hx as [<- _]. rewrite lookup_insert_ne by exact Hn. rewrite lookup_singleton. eauto.
  - intros k d. assert (Hne : prefix ++ B ".cpu.user" <> prefix ++ B ".cpu.system") by (intros H; apply app_inv_head in H; discriminate).
    unfold cpu_dict. rewrite !lookup_insert_Some, !lookup_singleton_Some. split.
    + intros [[<- <-]|[H [<- <-]]].
      * exists u', u. rewrite !lookup_insert. auto.
      * exists s', s. rewrite !lookup_insert_ne, !lookup_singleton by congruence. auto.
    + intros (a & b & Ha & Hb & ->). rewrite lookup_insert_Some, lookup_singleton_Some in Ha. rewrite lookup_insert_Some, lookup_singleton_Some in Hb.
      destruct Ha as [[<- <-]|[Hn [<- <-]]], Hb as [[E <-]|[Hn' [E' <-]]]; auto; try congruence.
Qed.
Lemma cpu_history prefix (ps : list (pproc V)) first rest :
  Forall2 (fun q '(u, s) => pp_cpu_times q = Ok [u; s]) ps (first :: rest) ->
  reports minus (map (fun q => get_cpu_counters (Ok q) prefix) ps) (GLive None) =
    Ok ∅ :: map (fun '((u, s), (u', s')) => Ok (cpu_dict prefix (minus u' u) (minus s' s))) (steps first rest).
Proof.
  assert (Hget : forall q u s, pp_cpu_times q = Ok [u; s] -> get_cpu_counters (Ok q) prefix = Ok (cpu_dict prefix u s)).
  { intros q u s H. apply cpu_ok. exists q, u, s. split; [reflexivity|]. split; [exact H|]. apply cpu_dict_of. reflexivity. }
  intros H. inversion H as [|q [u s] ps' ? Hq Hr]; subst. cbn [map reports]. rewrite (Hget _ _ _ Hq). cbn [report]. f_equal.
  clear Hq H q. revert u s ps' Hr. induction rest as [|[u' s'] rest IH]; intros u s ps Hr; inversion Hr as [|q ? ps' ? Hq Hr']; subst; [reflexivity|].
  cbn [map reports report steps]. rewrite (Hget _ _ _ Hq). cbn [report]. rewrite cpu_diff. f_equal. apply IH, Hr'.
Qed.
Lemma cpu_dead prefix q qs : (exists t, pp_cpu_times q = Ok t /\ length t <> 2%nat) ->
  reports minus (map (fun p => get_cpu_counters p prefix) (Ok q :: qs)) (GLive None) = Exn ValueError :: map (fun _ => Exn StopIteration) qs.
Proof.
  intros (t & Ht & Hn). cbn [map reports]. unfold get_cpu_counters at 1. cbn [rbind]. rewrite Ht. cbn [rbind].
  assert (unpack2 t = Exn ValueError) as -> by (apply unpack2_exn; auto). cbn [rbind report]. f_equal.
  rewrite reports_done, map_map. reflexivity.
Qed.
Lemma diff_empty (m : dict) : differences minus ∅ m = Ok ∅.
Proof.
  apply differences_ok. split; [intros k [x H]; rewrite lookup_empty in H; discriminate|].
  intros k d. rewrite lookup_empty. split; [discriminate|]. intros (a & b & H & _). discriminate H.
Qed.
Lemma io_absent prefix (ps : list (pproc V)) : Forall (fun q => pp_io_counters q = None) ps ->
  reports minus (map (fun q => get_io_counters (Ok q) prefix) ps) (GLive None) = map (fun _ => Ok ∅) ps.
Proof.
  intros H. assert (Hg : forall q, pp_io_counters q = None -> get_io_counters (Ok q) prefix = Ok ∅) by (intros q E; apply io_ok; eauto).
  destruct H as [|q ps Hq H]; [reflexivity|]. cbn [map reports]. rewrite (Hg _ Hq). cbn [report]. f_equal. clear Hq q.
  induction H as [|q ps Hq _ IH]; [reflexivity|]. cbn [map reports]. rewrite (Hg _ Hq). cbn [report]. rewrite diff_empty. f_equal. exact IH.
Qed.

(** one generator, several callers *)
Lemma shared_results (calls : list (nat * res dict)) : map snd (shared_calls minus calls) = reports minus (map snd calls) (GLive None).
Proof.
  unfold shared_calls. assert (Hlen : forall l g, length (reports (V := V) minus l g) = length l).
  { induction l as [|x l IH]; intros g; [reflexivity|]. cbn [reports]. destruct (report minus x g). cbn. rewrite IH. reflexivity. }
  generalize (Hlen (map snd calls) (GLive None)). generalize (reports minus (map snd calls) (GLive None)). intros l. rewrite map_length, <- (map_length fst calls).
  generalize (map fst calls). clear. intros k. revert k. induction l as [|x l IH]; intros [|y k] H; try discriminate; [reflexivity|].
  cbn. f_equal. apply IH. injection H as H. exact H.
Qed.
End facts.

(** the sums of what everybody got *)
Section sums.
Definition total_of (k : str) (l : list (res (gmap str Z))) : Z := added Z.add k l 0.
Lemma added_acc (k : str) (l : list (res (gmap str Z))) : forall a, added Z.add k l a = a + total_of k l.
Proof.
  unfold total_of. induction l as [|[m|e] l IH]; intros a; cbn [added]; [lia| |apply IH].
  rewrite IH, (IH (match m !! k with Some d => 0 + d | None => 0 end)). destruct (m !! k); lia.
Qed.
Lemma total_cons (k : str) (r : res (gmap str Z)) (l : list (res (gmap str Z))) : total_of k (r :: l) = total_of k [r] + total_of k l.
Proof. unfold total_of at 1. destruct r as [m|e]; cbn [added]; rewrite added_acc; unfold total_of; cbn [added]; reflexivity. Qed.
Lemma total_app (k : str) (l l' : list (res (gmap str Z))) : total_of k (l ++ l') = total_of k l + total_of k l'.
Proof. induction l as [|r l IH]; [reflexivity|]. cbn [app]. rewrite total_cons, (total_cons k r l), IH. lia. Qed.
Fixpoint zsum_to (n : nat) (f : nat -> Z) : Z := match n with O => 0 | S n' => zsum_to n' f + f n' end.
Lemma sum_split (n : nat) (k : str) (l : list (nat * res (gmap str Z))) : Forall (fun c => (fst c < n)%nat) l ->
  zsum_to n (fun who => total_of k (got who l)) = total_of k (map snd l).
Proof.
  intros H. induction H as [|[w r] l Hw _ IH].
  - induction n as [|n IH]; [reflexivity|]. cbn [zsum_to]. rewrite IH. reflexivity.
  - cbn [map snd]. rewrite total_cons, <- IH. cbn [fst] in Hw. unfold got. cbn [List.filter fst].
    assert (Hlow : forall j, (j <= w)%nat -> zsum_to j (fun who => total_of k (map snd (if (w =? who)%nat then (w, r) :: List.filter (fun c => (fst c =? who)%nat) l else List.filter (fun c => (fst c =? who)%nat) l)))
        = zsum_to j (fun who => total_of k (map snd (List.filter (fun c => (fst c =? who)%nat) l)))).
    { induction j as [|j IHj]; intros Hj; [reflexivity|]. cbn [zsum_to]. rewrite IHj by lia. destruct (Nat.eqb_spec w j); [lia|reflexivity]. }
    clear IH. induction n as [|n IHn]; [lia|]. cbn [zsum_to]. destruct (Nat.eqb_spec w n) as [->|Hne].
    + rewrite Hlow by lia. cbn [map snd]. rewrite (total_cons k r). lia.
    + rewrite IHn by lia. lia.
Qed.
Lemma shared_sum (n who0 : nat) (first : gmap str Z) (rest : list (nat * gmap str Z)) (k : str) (a z : Z) :
  (forall m, In m (map snd rest) -> dom m = dom first) -> first !! k = Some a ->
  stdpp.list.last (first :: map snd rest) ≫= (fun m => m !! k) = Some z ->
  Forall (fun w => (w < n)%nat) (who0 :: map fst rest) ->
  let calls := (who0, Ok first) :: map (fun '(w, m) => (w, Ok m)) rest in
  zsum_to n (fun who => total_of k (got who (shared_calls Z.sub calls))) = z - a.
Proof.
  intros Hd Ha Hz Hw calls. rewrite sum_split.
  - rewrite shared_results. assert (map snd calls = map Ok (first :: map snd rest)) as ->.
    { unfold calls. cbn [map snd]. f_equal. rewrite !map_map. apply map_ext. intros []. reflexivity. }
    destruct (telescope_int first (map snd rest) k a z Hd Ha Hz) as (rs & -> & _ & Hs). exact Hs.
  - unfold shared_calls. assert (map fst calls = who0 :: map fst rest) as ->.
    { unfold calls. cbn [map fst]. f_equal. rewrite map_map. apply map_ext. intros []. reflexivity. }
    revert Hw. generalize (reports Z.sub (map snd calls) (GLive None)). generalize (who0 :: map fst rest). clear. intros l. 
    induction l as [|w l IH]; intros rs H; [constructor|]. inversion_clear H. destruct rs; cbn; constructor; [assumption|]. apply IH. assumption.
Qed.
End sums.
