(** The statistics of the process and of the system (C102). *)
From Verif Require Import Base Num StrFacts LineSpec LineFacts Glob Processor RouterSpec ProcSpec Process ProcessSpec ProcessFacts CounterFacts Psutil PsutilFacts Props_Process.
Open Scope Z_scope.

(** C102.  Memory and CPU: four values under their names, the number of threads if psutil can
    tell; in this order of asking, the first failure is the report's.  What is called vsize
    is the first component of psutil's tuple, rss the second. *)
Theorem C102_memory_cpu : forall V (p : res (pproc V)) prefix m, get_memory_and_cpu p prefix = Ok m <->
  exists q first second cpu mem more, p = Ok q /\ pp_memory_info q = Ok [first; second] /\ pp_cpu_percent q = Ok cpu /\ pp_memory_percent q = Ok mem /\
    (pp_num_threads q = None /\ more = [] \/ exists t, pp_num_threads q = Some (Ok t) /\ more = [(prefix ++ B ".threads", t)]) /\
    dict_of ([(prefix ++ B ".cpu.percent", cpu); (prefix ++ B ".memory.percent", mem); (prefix ++ B ".memory.vsize", first);
              (prefix ++ B ".memory.rss", second)] ++ more) m.
Proof. exact @memory_cpu_ok. Qed.
Print Assumptions C102_memory_cpu.
Theorem C102_memory_cpu_raises : forall V (p : res (pproc V)) prefix e, get_memory_and_cpu p prefix = Exn e <->
  exists pre post, asked p = pre ++ Exn e :: post /\ Forall (fun r => r = Ok tt) pre.
Proof. exact @memory_cpu_exn. Qed.
Print Assumptions C102_memory_cpu_raises.
(** CPU times: the first report is empty, each later one has both differences to the reading
    before *)
Theorem C102_cpu_times : forall V (minus : V -> V -> V) prefix (ps : list (pproc V)) first rest,
  Forall2 (fun q '(user, system) => pp_cpu_times q = Ok [user; system]) ps (first :: rest) ->
  exists rs, reports minus (map (fun q => get_cpu_counters (Ok q) prefix) ps) (GLive None) = Ok ∅ :: map Ok rs /\
    Forall2 (fun '((user, system), (user', system')) m =>
      dict_of [(prefix ++ B ".cpu.user", minus user' user); (prefix ++ B ".cpu.system", minus system' system)] m) (steps first rest) rs.
Proof.
  intros V minus prefix ps first rest H. rewrite (cpu_history minus prefix ps first rest H).
  exists (map (fun '((u, s), (u', s')) => cpu_dict prefix (minus u' u) (minus s' s)) (steps first rest)). split.
  - f_equal. rewrite map_map. apply map_ext. intros [[u s] [u' s']]. reflexivity.
  - induction (steps first rest) as [|[[u s] [u' s']] l IH]; constructor; [|exact IH]. apply cpu_dict_of. reflexivity.
Qed.
Print Assumptions C102_cpu_times.
(** A psutil that gives more (or fewer) than two CPU times: the first report fails with
    ValueError, and every later one with StopIteration, for good. *)
Theorem C102_cpu_dead : forall V (minus : V -> V -> V) prefix (q : pproc V) qs,
  (exists t, pp_cpu_times q = Ok t /\ length t <> 2%nat) ->
  reports minus (map (fun p => get_cpu_counters p prefix) (Ok q :: qs)) (GLive None) = Exn ValueError :: map (fun _ => Exn StopIteration) qs.
Proof. exact @cpu_dead. Qed.
Print Assumptions C102_cpu_dead.
(** IO: nothing, for good, where psutil cannot tell *)
Theorem C102_io : forall V (p : res (pproc V)) prefix m, get_io_counters p prefix = Ok m <->
  exists q, p = Ok q /\ (pp_io_counters q = None /\ m = ∅ \/
    exists rc wc rb wb, pp_io_counters q = Some (Ok [rc; wc; rb; wb]) /\
      dict_of [(prefix ++ B ".read.count", rc); (prefix ++ B ".write.count", wc); (prefix ++ B ".read.bytes", rb); (prefix ++ B ".write.bytes", wb)] m).
Proof. exact @io_ok. Qed.
Print Assumptions C102_io.
Theorem C102_io_absent : forall V (minus : V -> V -> V) prefix (ps : list (pproc V)), Forall (fun q => pp_io_counters q = None) ps ->
  reports minus (map (fun q => get_io_counters (Ok q) prefix) ps) (GLive None) = map (fun _ => Ok ∅) ps.
Proof. exact @io_absent. Qed.
Print Assumptions C102_io_absent.
(** Reports named twice share one generator: each difference goes to one of them only, all
    together make up last minus first; *)
Theorem C102_shared : forall n who0 (first : gmap str Z) (rest : list (nat * gmap str Z)) k a z,
  (forall m, In m (map snd rest) -> dom m = dom first) -> first !! k = Some a ->
  stdpp.list.last (first :: map snd rest) ≫= (fun m => m !! k) = Some z ->
  Forall (fun w => (w < n)%nat) (who0 :: map fst rest) ->
  let calls := (who0, Ok first) :: map (fun '(w, m) => (w, Ok m)) rest in
  zsum_to n (fun who => total_of k (got who (shared_calls Z.sub calls))) = z - a.
Proof. exact shared_sum. Qed.
Print Assumptions C102_shared.
(** so that none of them need report what happened since it last reported *)
Theorem C102_shared_refuted : exists (calls : list (nat * res (gmap str Z))) k,
  (* the counter goes from 0 to 100 between the two calls of each; the second gets nothing *)
  map (fun c => (fst c, match snd c with Ok m => m !! k | Exn _ => None end)) calls = [(0%nat, Some 0); (1%nat, Some 0); (0%nat, Some 100); (1%nat, Some 100)] /\
  map (fun r => match r with Ok m => m !! k | Exn _ => None end) (got 1 (shared_calls Z.sub calls)) = [Some 0; Some 0].
Proof.
  set (d n := Ok {[B "proc.cpu.user" := n]} : res (gmap str Z)).
  exists [(0%nat, d 0); (1%nat, d 0); (0%nat, d 100); (1%nat, d 100)], (B "proc.cpu.user"). split; vm_compute; reflexivity.
Qed.
Print Assumptions C102_shared_refuted.
(** /proc/net/dev: one more device, and the report of the network is dead *)
Theorem C102_new_device : forall prefix before last text m l after,
  Forall (fun t => exists m, parse_netdev t prefix = Ok m) (before ++ [last]) ->
  parse_netdev last prefix = Ok l -> parse_netdev text prefix = Ok m -> (exists k, is_Some (m !! k) /\ l !! k = None) ->
  (exists rs, reports Z.sub (map (fun t => file_stats (fun s => parse_netdev s prefix) (Ok t)) (before ++ [last])) (GLive None) = map Ok rs) ->
  exists rs e, reports Z.sub (map (file_stats (fun s => parse_netdev s prefix)) (map Ok (before ++ [last]) ++ Ok text :: after)) (GLive None) =
    map Ok rs ++ Exn e :: map (fun _ => Exn StopIteration) after.
Proof.
  intros prefix before last text m l after HF Hl Hm Hk (rs & Hrs).
  assert (exists ms, map (fun t => file_stats (fun s => parse_netdev s prefix) (Ok t)) before = map Ok ms) as [ms Hms].
  { apply Forall_app in HF as [HF _]. clear -HF. induction HF as [|t ts [m Hm] _ [ms IH]]; [exists []; reflexivity|].
    exists (m :: ms). cbn [map]. rewrite IH. cbn [file_stats rbind]. rewrite Hm. reflexivity. }
  assert (He : map (fun t => file_stats (fun s => parse_netdev s prefix) (Ok t)) (before ++ [last]) = map Ok (ms ++ [l])).
  { rewrite !map_app, Hms. cbn [map file_stats rbind]. rewrite Hl. reflexivity. }
  rewrite He in Hrs.
  destruct (C80_dead Z Z.sub (ms ++ [l]) (Some l) (Ok m) (map (file_stats (fun s => parse_netdev s prefix)) after) rs Hrs) as (e & H).
  - symmetry. apply last_snoc.
  - right. exists m, l. auto.
  - exists rs, e. rewrite map_app, map_map. cbn [map]. rewrite He.
    assert (file_stats (fun s => parse_netdev s prefix) (Ok text) = Ok m) as -> by exact Hm.
    rewrite H, map_map. reflexivity.
Qed.
Print Assumptions C102_new_device.
(** a file of /proc that cannot be read, or not parsed, fails the report of the moment; the
    report of the network, which keeps a generator, fails for good *)
Theorem C102_file : forall parser (contents : res str),
  (forall m : gmap str Z, file_stats parser contents = Ok m <-> exists text, contents = Ok text /\ parser text = Ok m) /\
  (forall e, file_stats parser contents = Exn e <-> contents = Exn e \/ exists text, contents = Ok text /\ parser text = Exn e).
Proof.
  intros parser [text|e']; cbn [file_stats rbind]; (split; [intros m|intros e]); split.
  - eauto.
  - intros (t & [= <-] & H). exact H.
  - eauto.
  - intros [H|(t & [= <-] & H)]; [discriminate|exact H].
  - discriminate.
  - intros (t & H & _). discriminate.
  - intros [= ->]. auto.
  - intros [[= ->]|(t & H & _)]; [reflexivity|discriminate].
Qed.
Print Assumptions C102_file.
Theorem C102_unreadable : forall prefix (before : list str) e after rs,
  reports Z.sub (map (fun t => file_stats (fun s => parse_netdev s prefix) (Ok t)) before) (GLive None) = map Ok rs ->
  reports Z.sub (map (file_stats (fun s => parse_netdev s prefix)) (map Ok before ++ Exn e :: after)) (GLive None) =
    map Ok rs ++ Exn e :: map (fun _ => Exn StopIteration) after.
Proof.
  intros prefix before e after.
  enough (H : forall g rs, reports Z.sub (map (fun t => file_stats (fun s => parse_netdev s prefix) (Ok t)) before) (GLive g) = map Ok rs ->
    reports Z.sub (map (file_stats (fun s => parse_netdev s prefix)) (map Ok before ++ Exn e :: after)) (GLive g) =
    map Ok rs ++ Exn e :: map (fun _ => Exn StopIteration) after) by exact (H None).
  assert (Hd : forall l, reports Z.sub l GDone = map (fun _ => Exn StopIteration) l) by (intros l; induction l as [|x l IH]; [reflexivity|cbn; rewrite IH; reflexivity]).
  induction before as [|t before IH]; intros g rs Hr.
  - destruct rs; [|discriminate]. cbn. rewrite Hd, map_map. reflexivity.
  - cbn [map app reports] in *. set (x := file_stats _ (Ok t)) in *. destruct (report Z.sub x (GLive g)) as [g' r] eqn:Eg.
    destruct rs as [|y rs]; [discriminate|]. cbn [map] in Hr. injection Hr as -> Hr. cbn [map app]. f_equal.
    destruct g' as [g'|]; [exact (IH g' rs Hr)|]. exfalso. unfold report in Eg. destruct x as [m|e']; [|congruence].
    destruct g as [g|]; [destruct (differences Z.sub m g)|]; congruence.
Qed.
Print Assumptions C102_unreadable.

(** the thread pool and the reactor: every size under its own name *)
Theorem C102_sizes : forall prefix working queue waiters threads readers writers,
  dict_of [(prefix ++ B ".working", working); (prefix ++ B ".queue", queue); (prefix ++ B ".waiters", waiters); (prefix ++ B ".threads", threads)]
    (threadpool_stats working queue waiters threads prefix) /\
  dict_of [(prefix ++ B ".readers", readers); (prefix ++ B ".writers", writers)] (reactor_stats readers writers prefix).
Proof. intros. split; apply dict_of_fun; reflexivity. Qed.
Print Assumptions C102_sizes.

Definition C102_process (user system : Z) : pproc Z := PProc (Ok [10; 20]) (Ok 5) (Ok 7) (Some (Ok 3)) (Ok [user; system]) None.
Example C102_cpu_case : map (fun r => match r with Ok m => Ok (m !! B "proc.cpu.user", m !! B "proc.cpu.system") | Exn e => Exn e end)
  (reports Z.sub (map (fun q => get_cpu_counters (Ok q) (B "proc")) [C102_process 1 2; C102_process 4 2; C102_process 9 8]) (GLive None)) =
  [Ok (None, None); Ok (Some 3, Some 0); Ok (Some 5, Some 6)].
Proof. vm_compute. reflexivity. Qed.
Example C102_memory_case : (match get_memory_and_cpu (Ok (C102_process 1 2)) (B "proc") with
  | Ok m => map (fun k => m !! (B "proc." ++ k)) [B "cpu.percent"; B "memory.percent"; B "memory.vsize"; B "memory.rss"; B "threads"]
  | Exn _ => [] end) = [Some 5; Some 7; Some 10; Some 20; Some 3] /\
  get_memory_and_cpu (Ok (PProc (Ok [1; 2; 3]) (Exn OtherError) (Ok 7) None (Ok []) None)) (B "proc") = Exn ValueError.
Proof. split; vm_compute; reflexivity. Qed.
(** a tuple of five *)
Example C102_dead_case : pp_cpu_times (PProc (Ok []) (Ok 0) (Ok 0) None (Ok [1; 2; 0; 0; 0]) None) = Ok [1; 2; 0; 0; 0] /\ length [1; 2; 0; 0; 0] <> 2%nat.
Proof. split; [reflexivity|discriminate]. Qed.
Definition net_text (devices : list str) : str :=
  B "Inter-| Receive | Transmit" ++ [c_nl] ++ B " face |bytes packets|bytes packets" ++ [c_nl] ++ concat (map (fun d => d ++ B ": 1 2 3 4" ++ [c_nl]) devices).
Example C102_device_case :
  (match parse_netdev (net_text [B "lo"]) (B "net"), parse_netdev (net_text [B "lo"; B "eth0"]) (B "net") with
   | Ok l, Ok m => (l !! B "net.eth0.bytes.sent", m !! B "net.eth0.bytes.sent", m !! B "net.lo.packets.received")
   | _, _ => (None, None, None) end) = (None, Some 3, Some 2) /\
  map (fun r => match r with Ok _ => None | Exn e => Some e end)
    (reports Z.sub (map (file_stats (fun s => parse_netdev s (B "net"))) (map Ok [net_text [B "lo"]; net_text [B "lo"]; net_text [B "lo"; B "eth0"]; net_text [B "lo"]])) (GLive None))
  = [None; None; Some KeyError; Some StopIteration].
Proof. split; vm_compute; reflexivity. Qed.
