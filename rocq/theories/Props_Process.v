(** C79-C81, C89, C90: process.py *)
From Verif Require Import Base Num B64 LineSpec Glob Processor RouterSpec ProcSpec Process ProcessSpec ProcessFacts CounterFacts Decimal StrFacts LineFacts Demo.
From Coq Require Import QArith Qcanon.
Open Scope Z_scope.

(** results as lists, to compare them *)
Definition items {V} (rs : list (res (gmap str V))) : list (res (list (str * V))) :=
  map (fun r => match r with Ok m => Ok (map_to_list m) | Exn e => Exn e end) rs.

(** C79, C80: the result of every call, whatever the readings *)
Theorem C79_every_call : forall V (minus : V -> V -> V) readings results,
  reports minus readings (GLive None) = results <-> reported minus None readings results.
Proof. intros. apply reports_iff. Qed.
Print Assumptions C79_every_call.
(** C79: integer readings with the same keys: nothing, then differences with those
    keys that add up to last minus first *)
Theorem C79_telescope : forall (first : gmap str Z) rest k a z,
  (forall m, In m rest -> dom m = dom first) -> first !! k = Some a ->
  stdpp.list.last (first :: rest) ≫= (fun m => m !! k) = Some z ->
  exists rs, reports Z.sub (map Ok (first :: rest)) (GLive None) = Ok ∅ :: rs /\
    Forall (fun r => exists m, r = Ok m /\ dom m = dom first) rs /\ added Z.add k rs 0 = z - a.
Proof. exact telescope_int. Qed.
Print Assumptions C79_telescope.
Theorem C79_telescope_exact : forall V (minus plus : V -> V -> V) zero (first : gmap str V) rest k a z,
  (forall a b c, plus (minus b a) (minus c b) = minus c a) -> (forall a, minus a a = zero) ->
  (forall m, In m rest -> dom m = dom first) -> first !! k = Some a ->
  stdpp.list.last (first :: rest) ≫= (fun m => m !! k) = Some z ->
  exists rs, reports minus (map Ok (first :: rest)) (GLive None) = Ok ∅ :: rs /\ added plus k rs zero = minus z a.
Proof. exact @telescope_any. Qed.
Print Assumptions C79_telescope_exact.
Example C79_case :
  let d n : gmap str Z := {[B "proc.io.read.count" := n]} in
  (forall m, In m [d 9; d 4] -> dom m = dom (d 5)) /\
  items (reports Z.sub [Ok (d 5); Ok (d 9); Ok (d 4)] (GLive None)) = items [Ok ∅; Ok (d 4); Ok (d (-5))] /\
  added Z.add (B "proc.io.read.count") [Ok (d 4); Ok (d (-5))] 0 = 4 - 5.
Proof.
  cbv zeta. split; [intros m [<-|[<-|[]]]; rewrite !dom_singleton_L; reflexivity|].
  split; vm_compute; reflexivity.
Qed.
Example C79_exact_case : (forall a b c : Qc, Qcplus (Qcminus b a) (Qcminus c b) = Qcminus c a) /\ (forall a : Qc, Qcminus a a = QcZ 0).
Proof. split; intros; change (QcZ 0) with (Q2Qc 0%Q); ring. Qed.
(** the CPU times are floats: rounding breaks the sum *)
Theorem C79_float_refuted : exists (k : str) (x y z : @Num.num B64),
  exists rs, reports nsub [Ok {[k := x]}; Ok {[k := y]}; Ok {[k := z]}] (GLive None) = Ok ∅ :: rs /\
    neqb (added nadd k rs (nofZ 0)) (nsub z x) = false.
Proof.
  exists (B "sys.cpu.user"), (nlit (FDec false 0 0)), (nlit (FDec false 1 16)), (nlit (FDec false 1 0)).
  eexists. split; [reflexivity|]. vm_compute. reflexivity.
Qed.
Print Assumptions C79_float_refuted.

(** C80 *)
Theorem C80_dead : forall V (minus : V -> V -> V) before (last : option (gmap str V)) x after rs,
  reports minus (map Ok before) (GLive None) = map Ok rs -> last = stdpp.list.last before ->
  (exists e, x = Exn e) \/ (exists new l, x = Ok new /\ last = Some l /\ exists k, is_Some (new !! k) /\ l !! k = None) ->
  exists e, reports minus (map Ok before ++ x :: after) (GLive None) =
            map Ok rs ++ Exn e :: map (fun _ => Exn StopIteration) after.
Proof.
  intros V minus before last x after rs Hb -> Hx.
  enough (G : forall g0 : option (gmap str V), reports minus (map Ok before) (GLive g0) = map Ok rs ->
     (exists e, x = Exn e) \/ (exists new l, x = Ok new /\ stdpp.list.last (match g0 with Some g => g :: before | None => before end) = Some l /\ exists k, is_Some (new !! k) /\ l !! k = None) ->
     exists e, reports minus (map Ok before ++ x :: after) (GLive g0) = map Ok rs ++ Exn e :: map (fun _ => Exn StopIteration) after)
    by (apply (G None); assumption).
  clear Hb Hx. revert rs. induction before as [|b before IH]; intros rs g0 Hb Hx.
  - cbn in Hb. destruct rs; [|discriminate]. cbn [map app reports report].
    destruct Hx as [[e ->]|(new & l & -> & Hl & k & Hk & Hn)].
    + exists e. rewrite reports_done. reflexivity.
    + destruct g0 as [g|]; [|discriminate]. cbn in Hl. inversion Hl; subst.
      exists KeyError. rewrite (proj2 (differences_exn minus new l KeyError)).
      * rewrite reports_done. reflexivity.
      * split; [reflexivity|]. intros Hc. destruct (Hc k Hk) as [v Hv]. congruence.
  - cbn [map app reports report] in *. destruct g0 as [g|].
    + destruct (differences minus b g) as [r|e] eqn:E; [|destruct rs; discriminate].
      destruct rs as [|r0 rs]; [discriminate|]. cbn [map] in Hb. injection Hb as E0 Hb.
      destruct (IH rs (Some b) Hb) as (e & He); [destruct Hx as [Hx|Hx]; [left; exact Hx|right; exact Hx]|].
      exists e. rewrite He. cbn. rewrite E0. reflexivity.
    + destruct rs as [|r0 rs]; [discriminate|]. cbn [map] in Hb. injection Hb as E0 Hb.
      destruct (IH rs (Some b) Hb) as (e & He); [destruct Hx as [Hx|Hx]; [left; exact Hx|right; exact Hx]|].
      exists e. rewrite He. cbn. rewrite E0. reflexivity.
Qed.
Print Assumptions C80_dead.
Example C80_case :
  let a : gmap str Z := {[B "net.eth0.bytes.sent" := 1]} in
  let b : gmap str Z := <[B "net.wlan0.bytes.sent" := 7]> a in
  items (reports Z.sub (map Ok [a; a]) (GLive None)) = items (map Ok [∅; {[B "net.eth0.bytes.sent" := 0]}]) /\
  items (reports Z.sub [Ok a; Ok a; Ok b; Ok b; Ok a] (GLive None)) =
    items [Ok ∅; Ok {[B "net.eth0.bytes.sent" := 0]}; Exn KeyError; Exn StopIteration; Exn StopIteration].
Proof. split; vm_compute; reflexivity. Qed.

(** C81 *)
Theorem C81_meminfo : forall data prefix m, parse_meminfo data prefix = Ok m <->
  exists lines says, cut c_nl data lines /\ Forall2 mem_line lines says /\
    dict_of (map (fun '(k, v) => (prefix ++ B "." ++ k, v)) (concat says)) m.
Proof. exact meminfo_ok. Qed.
Print Assumptions C81_meminfo.
Theorem C81_meminfo_raises : forall data prefix e, parse_meminfo data prefix = Exn e <->
  exists pre line post, cut c_nl data (pre ++ line :: post) /\
    Forall (fun l => exists says, mem_line l says) pre /\ mem_bad line e.
Proof. exact meminfo_exn. Qed.
Print Assumptions C81_meminfo_raises.
Theorem C81_loadavg : forall (NN : Num.Num) data prefix r, parse_loadavg data prefix = Ok r <->
  exists ws xs, ws_words data ws /\ Forall2 reads (firstn 3 ws) xs /\
    r = combine [prefix ++ B ".oneminute"; prefix ++ B ".fiveminutes"; prefix ++ B ".fifthteenminutes"] xs.
Proof. exact @loadavg_ok. Qed.
Print Assumptions C81_loadavg.
Theorem C81_loadavg_raises : forall (NN : Num.Num) data prefix e, parse_loadavg data prefix = Exn e <->
  e = ValueError /\ exists ws w, ws_words data ws /\ In w (firstn 3 ws) /\ not_a_number w.
Proof. exact @loadavg_exn. Qed.
Print Assumptions C81_loadavg_raises.
Theorem C81_netdev : forall data prefix m, parse_netdev data prefix = Ok m <->
  exists lines says, lines_of data lines /\ dev_file prefix lines says /\ dict_of (concat says) m.
Proof. exact netdev_ok. Qed.
Print Assumptions C81_netdev.
(** a line of spaces in /proc/meminfo is an IndexError *)
Theorem C81_blank_refuted : exists data prefix, parse_meminfo data prefix = Exn IndexError /\ (forall c, In c data -> c = " "%char).
Proof.
  exists (B "  "), (B "meminfo"). split; [vm_compute; reflexivity|].
  intros c H. destruct H as [<-|[<-|[]]]; reflexivity.
Qed.
Print Assumptions C81_blank_refuted.
Definition meminfo_text : str :=
  B "MemTotal:     8 kB" ++ [c_nl] ++ B "Active:  junk" ++ [c_nl] ++ B "MemFree: 3 mB" ++ [c_nl] ++ B "Cached: 5" ++ [c_nl].
Example C81_meminfo_case : items [parse_meminfo meminfo_text (B "meminfo")] =
  items [Ok (<[B "meminfo.Cached" := 5]> (<[B "meminfo.MemFree" := 3145728]> {[B "meminfo.MemTotal" := 8192]}))].
Proof. vm_compute. reflexivity. Qed.
Example C81_meminfo_raises_case : parse_meminfo (B "MemFree: 3 gB") (B "meminfo") = Exn KeyError /\
  parse_meminfo (B "MemFree: three kB") (B "meminfo") = Exn ValueError.
Proof. split; vm_compute; reflexivity. Qed.
Example C81_loadavg_case : ws_words (B "0.5 1 2e1 1/99 1") [B "0.5"; B "1"; B "2e1"; B "1/99"; B "1"].
Proof. apply ws_words_iff. vm_compute. reflexivity. Qed.
Definition netdev_text : str :=
  B "Inter-|   Receive  |  Transmit" ++ [c_nl] ++ B " face |bytes packets errs|bytes packets" ++ [c_nl] ++
  B "    lo: 10 2 0 30 4" ++ [c_nl] ++ B "  eth0:5 6 7 8 9" ++ [c_nl].
Example C81_netdev_case : match parse_netdev netdev_text (B "net") with
  | Ok m => m !! B "net.lo.bytes.received" = Some 10 /\ m !! B "net.lo.packets.sent" = Some 4 /\
            m !! B "net.eth0.bytes.sent" = Some 8 /\ m !! B "net.eth0.packets.received" = Some 6 /\ size m = 8%nat
  | Exn _ => False end.
Proof. vm_compute. repeat split; reflexivity. Qed.

(** C89 *)
Theorem C89_counts : forall l prefix status n, no_capital status -> tally stream status l n ->
  get_net_stats (Some l) prefix !! (prefix ++ B ".status." ++ status) = if n =? 0 then None else Some n.
Proof. exact net_stats. Qed.
Print Assumptions C89_counts.
Theorem C89_only : forall conns prefix k v, get_net_stats conns prefix !! k = Some v ->
  exists l status, conns = Some l /\ k = prefix ++ B ".status." ++ status /\ no_capital status.
Proof. exact net_stats_keys. Qed.
Print Assumptions C89_only.
Example C89_case :
  let l := [(SockStream, B "ESTABLISHED"); (SockOther, B "established"); (SockStream, B "Close_Wait"); (SockStream, B "established")] in
  tally stream (B "established") l 2 /\ get_net_stats (Some l) (B "net") !! B "net.status.established" = Some 2.
Proof.
  cbv zeta. split; [|vm_compute; reflexivity].
  assert (Hn : no_capital (B "established")).
  { intros c Hc H. apply has_In in H. cbn in Hc. repeat (destruct Hc as [<-|Hc]; [vm_compute in H; discriminate|]). exact Hc. }
  change 2 with (1 + 1). apply ta_hit; [reflexivity|apply lower_word; [exact Hn|vm_compute; reflexivity]|].
  apply ta_miss; [intros [H _]; discriminate|].
  apply ta_miss; [intros [_ H]; apply lower_word in H; [vm_compute in H; discriminate|exact Hn]|].
  change 1 with (0 + 1). apply ta_hit; [reflexivity|apply lower_word; [exact Hn|vm_compute; reflexivity]|constructor].
Qed.

(** C90 *)
Theorem C90_percpu : forall V prefix (cpus : list (list (str * V))),
  (forall times, In times cpus -> NoDup (map fst times)) ->
  forall k v, system_stats_percpu prefix cpus !! k = Some v <->
    exists i times mode num, nth_error cpus i = Some times /\ three_digits num (Z.of_nat i) /\ In (mode, v) times /\
      k = prefix ++ B ".cpu." ++ num ++ B "." ++ mode.
Proof. exact @percpu_digits. Qed.
Print Assumptions C90_percpu.
(** without [percpu] the CPU times come under one name per mode *)
Theorem C90_one : forall V prefix (times : list (str * V)), NoDup (map fst times) ->
  forall k v, system_stats_one prefix times !! k = Some v <-> exists mode, In (mode, v) times /\ k = prefix ++ B ".cpu." ++ mode.
Proof. exact @one_cpu. Qed.
Print Assumptions C90_one.
(** different CPUs and modes never share a name *)
Theorem C90_distinct : forall prefix i j num num' a b, three_digits num (Z.of_nat i) -> three_digits num' (Z.of_nat j) ->
  prefix ++ B ".cpu." ++ num ++ B "." ++ a = prefix ++ B ".cpu." ++ num' ++ B "." ++ b -> i = j /\ a = b.
Proof. exact cpu_names_apart. Qed.
Print Assumptions C90_distinct.
Example C90_case : (forall times, In times [[(B "user", 1); (B "idle", 2)]; [(B "user", 3)]] -> NoDup (map fst times)) /\
  system_stats_percpu (B "sys") [[(B "user", 1); (B "idle", 2)]; [(B "user", 3)]] !! B "sys.cpu.001.user" = Some 3 /\
  system_stats_one (B "sys") [(B "user", 1); (B "idle", 2)] !! B "sys.cpu.idle" = Some 2.
Proof.
  split; [|split; vm_compute; reflexivity].
  intros times [<-|[<-|[]]]; cbn; [|apply NoDup_singleton].
  apply NoDup_cons. split; [|apply NoDup_singleton]. intros H. apply elem_of_list_singleton in H. discriminate.
Qed.
