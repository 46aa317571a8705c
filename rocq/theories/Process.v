(** txstatsd/process.py: the /proc parsers, the difference reporter and the
    statistics of a process.  psutil and the file system are inputs. *)
From Verif Require Import Base Num.

(** ** string methods used here only *)
(** [s.split()]: maximal runs of non-whitespace *)
Fixpoint split_ws_go (cur : str) (s : str) : list str :=
  match s with
  | [] => if nonempty cur then [cur] else []
  | c :: s' => if is_space c then (if nonempty cur then cur :: split_ws_go [] s' else split_ws_go [] s')
               else split_ws_go (cur ++ [c]) s'
  end.
Definition split_ws (s : str) : list str := split_ws_go [] s.
(** [s.splitlines()] on python 2 byte strings: \n, \r and \r\n end a line; no
    empty last line *)
Fixpoint splitlines_go (cur : str) (s : str) : list str :=
  match s with
  | [] => if nonempty cur then [cur] else []
  | c :: s' =>
      if eqc c c_nl then cur :: splitlines_go [] s'
      else if eqc c c_cr then
        cur :: match s' with
               | d :: s'' => if eqc d c_nl then splitlines_go [] s'' else splitlines_go [] s'
               | [] => []
               end
      else splitlines_go (cur ++ [c]) s'
  end.
Definition splitlines (s : str) : list str := splitlines_go [] s.

Definition rbind {A C} (r : res A) (f : A -> res C) : res C :=
  match r with Ok a => f a | Exn e => Exn e end.
(** [int(x)] *)
Definition to_int (s : str) : res Z := match parse_int s with Some z => Ok z | None => Exn ValueError end.
(** a for loop over the items that may raise *)
Fixpoint rfold {A S} (f : S -> A -> res S) (l : list A) (s : S) : res S :=
  match l with [] => Ok s | a :: l' => rbind (f s a) (fun s' => rfold f l' s') end.
(** [[f(x) for x in l]] *)
Fixpoint rmap {A C} (f : A -> res C) (l : list A) : res (list C) :=
  match l with [] => Ok [] | a :: l' => rbind (f a) (fun c => rbind (rmap f l') (fun cs => Ok (c :: cs))) end.

(** ** parse_meminfo, process.py:42-63 *)
(** process.py:29-31 *)
Definition meminfo_keys : list str :=
  [B "MemTotal:"; B "MemFree:"; B "Buffers:"; B "Cached:"; B "SwapCached:"; B "SwapTotal:"; B "SwapFree:"].
(** process.py:33 MULTIPLIERS[x] *)
Definition multiplier (u : str) : res Z :=
  if str_eqb u (B "kB") then Ok 1024 else if str_eqb u (B "mB") then Ok (1024 * 1024) else Exn KeyError.
(** process.py:46-62, one turn of the loop *)
Definition meminfo_line (prefix : str) (result : gmap str Z) (line : str) : res (gmap str Z) :=
  if nonempty line then
    let parts := List.filter nonempty (split_on " " line) in
    match parts with
    | [] => Exn IndexError                                  (* parts[0] *)
    | p0 :: rest =>
        if existsb (str_eqb p0) meminfo_keys then
          rbind (match rest with [_; p2] => multiplier p2 | _ => Ok 1 end) (fun multiple =>
          match rest with
          | [] => Exn IndexError                            (* parts[1] *)
          | p1 :: _ =>
              rbind (to_int p1) (fun n =>
              Ok (<[prefix ++ B "." ++ removelast p0 := n * multiple]> result))
          end)
        else Ok result
    end
  else Ok result.
Definition parse_meminfo (data prefix : str) : res (gmap str Z) :=
  rfold (meminfo_line prefix) (split_on c_nl data) ∅.

(** ** parse_loadavg, process.py:66-72 *)
Section loadavg.
Context `{NN : Num}.
Definition to_float (s : str) : res num := match float_of s with Some x => Ok x | None => Exn ValueError end.
Definition parse_loadavg (data prefix : str) : res (list (str * num)) :=
  rbind (rmap to_float (firstn 3 (split_ws data))) (fun xs =>
  Ok (combine [prefix ++ B ".oneminute"; prefix ++ B ".fiveminutes"; prefix ++ B ".fifthteenminutes"] xs)).
End loadavg.

(** ** parse_netdev, process.py:75-96 *)
(** [dict(zip(columns, values))[key]]: the last entry of that name *)
Definition zip_get (columns : list str) (values : list Z) (key : str) : res Z :=
  match list_to_map (M := gmap str Z) (rev (combine columns values)) !! key with
  | Some z => Ok z
  | None => Exn KeyError
  end.
(** process.py:85-95, one turn of the loop *)
Definition netdev_line (prefix : str) (columns : list str) (result : gmap str Z) (line : str) : res (gmap str Z) :=
  if has ":" line then
    match split_on ":" line with
    | [device; data] =>
        let device := strip device in
        rbind (rmap to_int (split_ws data)) (fun values =>
        let key tail := prefix ++ B "." ++ device ++ tail in
        rbind (zip_get columns values (B "recv_bytes")) (fun rb =>
        rbind (zip_get columns values (B "send_bytes")) (fun sb =>
        rbind (zip_get columns values (B "recv_packets")) (fun rp =>
        rbind (zip_get columns values (B "send_packets")) (fun sp =>
        Ok (<[key (B ".bytes.received") := rb]> (<[key (B ".bytes.sent") := sb]>
           (<[key (B ".packets.received") := rp]> (<[key (B ".packets.sent") := sp]> result)))))))))
    | _ => Exn ValueError                                   (* too many values to unpack *)
    end
  else Ok result.
Definition parse_netdev (data prefix : str) : res (gmap str Z) :=
  let lines := splitlines data in
  match nth_error lines 1 with
  | None => Exn IndexError
  | Some header =>
      match split_on "|" header with
      | [_; receive; transmit] =>
          let columns := map (fun c => B "recv_" ++ c) (split_ws receive) ++
                         map (fun c => B "send_" ++ c) (split_ws transmit) in
          rfold (netdev_line prefix columns) (skipn 2 lines) ∅
      | _ => Exn ValueError
      end
  end.

(** ** report_counters, process.py:158-179 *)
Section counters.
(** Simplification: the values of a reading are integers, or any type with an
    exact total difference; the code uses python's [-]. *)
Context {V : Type} (minus : V -> V -> V).
Notation dict := (gmap str V).
(** the generator: suspended at the yield (or not started) with [last_value], or finished *)
Inductive gstate : Type := GLive (last : option dict) | GDone.
(** process.py:171-172.  The exception does not depend on the order of the items. *)
Definition differences (new last : dict) : res dict :=
  if forallb (fun kv => bool_decide (is_Some (last !! fst kv))) (map_to_list new)
  then Ok (merge (fun a b => match a, b with Some x, Some y => Some (minus x y) | _, _ => None end) new last)
  else Exn KeyError.
(** process.py:163-178: one call of [report]; [source] is what [report_function]
    would give, [None]: it is not called.  An exception ends the generator. *)
Definition report (source : res dict) (g : gstate) : gstate * res dict :=
  match g with
  | GDone => (GDone, Exn StopIteration)
  | GLive last =>
      match source with
      | Exn e => (GDone, Exn e)
      | Ok new =>
          match last with
          | None => (GLive (Some new), Ok ∅)
          | Some l => match differences new l with
                      | Ok r => (GLive (Some new), Ok r)
                      | Exn e => (GDone, Exn e)
                      end
          end
      end
  end.
(** successive calls *)
Fixpoint reports (sources : list (res dict)) (g : gstate) : list (res dict) :=
  match sources with
  | [] => []
  | x :: xs => let '(g', r) := report x g in r :: reports xs g'
  end.
End counters.

(** ** ProcessReport.get_net_stats, process.py:143-155.  A connection is its type
    and status; [None]: the process object has no [connections]. *)
Inductive sock : Type := SockStream | SockOther.
Definition net_stats_step (prefix : str) (result : gmap str Z) (c : sock * str) : gmap str Z :=
  match fst c with
  | SockStream =>
      let key := prefix ++ B ".status." ++ map to_lower (snd c) in
      match result !! key with
      | None => <[key := 1]> result
      | Some n => <[key := n + 1]> result
      end
  | SockOther => result
  end.
Definition get_net_stats (connections : option (list (sock * str))) (prefix : str) : gmap str Z :=
  match connections with
  | None => ∅
  | Some l => fold_left (net_stats_step prefix) l ∅
  end.

(** ** report_system_stats, process.py:189-199 *)
(** ["%03d" % n] *)
Definition pad3 (n : nat) : str :=
  let d := show_N (N.of_nat n) in repeat "0"%char (3 - length d) ++ d.
Section sysstats.
Context {V : Type}.
Definition system_stats_one (prefix : str) (times : list (str * V)) : gmap str V :=
  fold_left (fun m '(mode, t) => <[prefix ++ B ".cpu." ++ mode := t]> m) times ∅.
Definition system_stats_percpu (prefix : str) (cpus : list (list (str * V))) : gmap str V :=
  fst (fold_left (fun '(m, idx) times =>
         (fold_left (fun m '(mode, t) => <[prefix ++ B ".cpu." ++ pad3 idx ++ B "." ++ mode := t]> m) times m, S idx))
       cpus (∅, 0%nat)).
End sysstats.
