(** txstatsd/process.py: the statistics taken from psutil, the thread pool, the reactor and
    files.  What psutil, twisted and the file system answer are inputs. *)
From Verif Require Import Base Num Process.

Section psutil.
Context {V : Type}.
Notation dict := (gmap str V).
(** the psutil.Process object: what each method would answer now; [None]: there is no such method *)
Record pproc := PProc {
  pp_memory_info : res (list V);          (* a tuple *)
  pp_cpu_percent : res V;
  pp_memory_percent : res V;
  pp_num_threads : option (res V);
  pp_cpu_times : res (list V);            (* a tuple *)
  pp_io_counters : option (res (list V)) }. (* a tuple *)

(** [a, b = t] *)
Definition unpack2 (t : list V) : res (V * V) := match t with [a; b] => Ok (a, b) | _ => Exn ValueError end.
Definition unpack4 (t : list V) : res (V * V * V * V) := match t with [a; b; c; d] => Ok (a, b, c, d) | _ => Exn ValueError end.

(** ProcessReport.process, process.py:104-109, is the argument [p]: it may raise when it is
    first used ([psutil.Process(os.getpid())]).
    ProcessReport.get_memory_and_cpu, process.py:111-121 *)
Definition get_memory_and_cpu (p : res pproc) (prefix : str) : res dict :=
  rbind p (fun p =>
  rbind (rbind (pp_memory_info p) unpack2) (fun '(vsize, rss) =>
  rbind (pp_cpu_percent p) (fun cpu =>
  rbind (pp_memory_percent p) (fun mem =>
  let result := <[prefix ++ B ".memory.rss" := rss]> (<[prefix ++ B ".memory.vsize" := vsize]>
    (<[prefix ++ B ".memory.percent" := mem]> (<[prefix ++ B ".cpu.percent" := cpu]> ∅))) in
  match pp_num_threads p with
  | None => Ok result
  | Some t => rbind t (fun t => Ok (<[prefix ++ B ".threads" := t]> result))
  end)))).
(** ProcessReport.get_cpu_counters, process.py:123-128 *)
Definition get_cpu_counters (p : res pproc) (prefix : str) : res dict :=
  rbind p (fun p =>
  rbind (rbind (pp_cpu_times p) unpack2) (fun '(utime, stime) =>
  Ok (<[prefix ++ B ".cpu.system" := stime]> (<[prefix ++ B ".cpu.user" := utime]> ∅)))).
(** ProcessReport.get_io_counters, process.py:130-141 *)
Definition get_io_counters (p : res pproc) (prefix : str) : res dict :=
  rbind p (fun p =>
  match pp_io_counters p with
  | None => Ok ∅
  | Some t =>
      rbind (rbind t unpack4) (fun '(read_count, write_count, read_bytes, write_bytes) =>
      Ok (<[prefix ++ B ".write.bytes" := write_bytes]> (<[prefix ++ B ".read.bytes" := read_bytes]>
          (<[prefix ++ B ".write.count" := write_count]> (<[prefix ++ B ".read.count" := read_count]> ∅)))))
  end).

(** report_file_stats, process.py:223-228, with load_file, process.py:36-39: [contents] is what
    reading the file gives *)
Definition file_stats (parser : str -> res dict) (contents : res str) : res dict := rbind contents parser.

(** calls of one function of report_counters (process.py:158-179) by several callers: the
    functions of process.py:184-185 and 239-243 are made once, when the module is loaded, so
    that everybody who reports COUNTER_STATS, IO_STATS or SYSTEM_STATS shares a generator.
    A call is who makes it and what the wrapped function would answer. *)
Definition shared_calls (minus : V -> V -> V) (calls : list (nat * res dict)) : list (nat * res dict) :=
  combine (map fst calls) (reports minus (map snd calls) (GLive None)).
(** what [who] got *)
Definition got (who : nat) (l : list (nat * res dict)) : list (res dict) :=
  map snd (List.filter (fun c => (fst c =? who)%nat) l).
End psutil.
Arguments pproc : clear implicits.

(** report_threadpool_stats, process.py:202-210; sizes of the four collections *)
Definition threadpool_stats (working queue waiters threads : Z) (prefix : str) : gmap str Z :=
  <[prefix ++ B ".threads" := threads]> (<[prefix ++ B ".waiters" := waiters]>
  (<[prefix ++ B ".queue" := queue]> (<[prefix ++ B ".working" := working]> ∅))).
(** report_reactor_stats, process.py:213-220 *)
Definition reactor_stats (readers writers : Z) (prefix : str) : gmap str Z :=
  <[prefix ++ B ".writers" := writers]> (<[prefix ++ B ".readers" := readers]> ∅).
