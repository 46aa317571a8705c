(** Batches of lines (C88), the blocking UDP client (C93) and the metric pages (C94). *)
From Verif Require Import Base StrFacts Num NumFacts Env Stats Glob Metrics Gen Processor Configurable LineSpec LineFacts FloatFacts
  ProcFacts ProcSpec ReceiveFacts ReceiveFacts2 ReceiveFacts3 PlugFacts Sched CSched ConfFacts ConfDerived XQFacts BinFacts
  VarianceFacts LogFacts Demo BatchFacts Plain PlainFacts Http HttpFacts Decimal Props_Conf.
From Coq Require Import QArith Qcanon.
Open Scope Z_scope.

(** C88: one datagram with several lines, each well formed.  Whatever they are, the text
    is not a line of a known type, so nothing is recorded and the whole is reported bad;
    for the compliant processor in any state with any plugins. *)
Theorem C88_batch_rejected : forall (NN : Num.Num) E plugins ms (s : mst (NN := NN)),
  (2 <= length ms)%nat -> Forall well_formed ms ->
  agg_unchanged s (receive E plugins (newline_joined ms) s) /\
  p_bad (receive E plugins (newline_joined ms) s) = newline_joined ms :: p_bad s.
Proof. exact (fun NN E plugins ms s Hn Hw => malformed_ignored E plugins _ s (batch_malformed NN plugins ms Hn Hw)). Qed.
Print Assumptions C88_batch_rejected.
(** the reason: if the text reads as a line at all, its type has a newline in it *)
Theorem C88_type_field : forall ms raw fields, (2 <= length ms)%nat -> Forall well_formed ms ->
  line_of (newline_joined ms) raw fields -> exists f0 t f2, fields = [f0; t; f2] /\ In c_nl t.
Proof. exact batch_type. Qed.
Print Assumptions C88_type_field.
Lemma well_formed_by m t key fields : typed_line m t key fields -> well_formed m.
Proof. intros (raw & H & _). exists raw, fields. exact H. Qed.
Example C88_case : Forall well_formed [B "a:1|c"; B "b:2|ms"; B "c:3|g"] /\
  newline_joined [B "a:1|c"; B "b:2|ms"] = B "a:1|c" ++ [c_nl] ++ B "b:2|ms".
Proof.
  split; [|reflexivity]. repeat constructor.
  - apply (well_formed_by _ (B "c") (B "a") [B "1"; B "c"]). line.
  - apply (well_formed_by _ (B "ms") (B "b") [B "2"; B "ms"]). line.
  - apply (well_formed_by _ (B "g") (B "c") [B "3"; B "g"]). line.
Qed.

(** C93: UdpStatsDClient(host, port) when the host resolves, over any history of calls.
    [prun p cs] are the calls of sendto (socket, host, port, data) and the results. *)
Theorem C93_history : forall getaddrinfo host port host' port' more cs,
  getaddrinfo host port = Ok ((host', port') :: more) ->
  exists p, plain_new getaddrinfo (Some host) (Some port) = Ok p /\
  forall i c, nth_error cs i = Some c ->
    exists call r, nth_error (snd (prun p cs)) i = Some (call, r) /\
    match c with
    | PWrite data sendto =>
        (forall k, connected (firstn i cs) k -> call = Some (k, host', port', data) /\ written sendto r) /\
        ((forall k, ~ connected (firstn i cs) k) -> call = None /\ r = Ok None)
    | PConnect (Exn e) => call = None /\ r = Exn e
    | _ => call = None /\ r = Ok None
    end.
Proof. exact plain_history. Qed.
Print Assumptions C93_history.
(** at most one socket is the connected one *)
Theorem C93_one_socket : forall cs k k', connected cs k -> connected cs k' -> k = k'.
Proof. exact connected_fun. Qed.
Print Assumptions C93_one_socket.
Theorem C93_mute : forall getaddrinfo host port cs, host = None \/ port = None ->
  exists p, plain_new getaddrinfo host port = Ok p /\
  forall i data sendto, nth_error cs i = Some (PWrite data sendto) -> nth_error (snd (prun p cs)) i = Some (None, Ok None).
Proof. exact plain_mute. Qed.
Print Assumptions C93_mute.
(** making the client fails exactly when the address does not resolve *)
Theorem C93_unresolved : forall getaddrinfo host port e, plain_new getaddrinfo (Some host) (Some port) = Exn e <->
  (e = ValueError /\ (getaddrinfo host port = Ok [] \/ getaddrinfo host port = Exn TypeError \/
                      getaddrinfo host port = Exn IndexError \/ getaddrinfo host port = Exn SocketError)) \/
  (getaddrinfo host port = Exn e /\ e <> TypeError /\ e <> IndexError /\ e <> SocketError).
Proof. exact plain_resolution. Qed.
Print Assumptions C93_unresolved.
(** Its name, which decides its places on a hash ring, is the host as it was given and the port
    as resolved, whatever address the host resolves to and whatever is called. *)
Theorem C93_name : forall getaddrinfo host port host' port' more p cs t,
  getaddrinfo host port = Ok ((host', port') :: more) -> plain_new getaddrinfo (Some host) (Some port) = Ok p ->
  decimal t port' -> plain_str (fst (prun p cs)) = Ok (host ++ B ":" ++ t).
Proof. exact plain_label. Qed.
Print Assumptions C93_name.
Theorem C93_no_name : forall getaddrinfo host port p cs, host = None \/ port = None -> plain_new getaddrinfo host port = Ok p ->
  match port with
  | None => plain_str (fst (prun p cs)) = Exn TypeError
  | Some n => forall t, decimal t n -> plain_str (fst (prun p cs)) = Ok (B "None:" ++ t)
  end.
Proof. exact plain_unnamed. Qed.
Print Assumptions C93_no_name.
Example C93_name_case : decimal (B "8125") 8125 /\
  plain_new (fun _ _ => Ok [(B "10.0.0.1", 8125)]) (Some (B "h")) (Some 8125) = Ok (Plain (Some (B "h")) (Some (B "10.0.0.1")) (Some 8125) None).
Proof. split; [apply show_Z_decimal; vm_compute; reflexivity|reflexivity]. Qed.
Example C93_case :
  let cs := [PWrite (B "lost") (Ok 4); PConnect (Ok 3%nat); PWrite (B "a:1|c") (Ok 5); PConnect (Exn OtherError);
             PWrite (B "b") (Exn SocketError); PDisconnect; PWrite (B "c") (Ok 1)] in
  snd (prun (Plain (Some (B "h")) (Some (B "10.0.0.1")) (Some 8125) None) cs) =
    [(None, Ok None); (None, Ok None); (Some (3%nat, B "10.0.0.1", 8125, B "a:1|c"), Ok (Some 5)); (None, Exn OtherError);
     (Some (3%nat, B "10.0.0.1", 8125, B "b"), Ok None); (None, Ok None); (None, Ok None)] /\
  connected (firstn 4 cs) 3.
Proof.
  split; [reflexivity|]. exists [PWrite (B "lost") (Ok 4)], [PWrite (B "a:1|c") (Ok 5); PConnect (Exn OtherError)].
  split; [reflexivity|]. repeat constructor.
Qed.

(** C94: the page of a metric.  [cp_page] is what GET metrics/NAME gives with the
    configurable processor, after any schedule of lines and flushes. *)
Theorem C94_page_exists : forall (NN : Num.Num) E prefix internal plugins es key,
  cp_page (creached (NN := NN) E prefix internal plugins es) key <> NoPage <->
  exists v, last_value (NN := NN) (B "ms") key (lines es) v.
Proof. exact page_exists. Qed.
Print Assumptions C94_page_exists.
(** it shows some final part of the durations received ... *)
Theorem C94_final_part : forall sq (E : env (NN := XQ sq)) prefix internal plugins es key all,
  picks (value_line (NN := XQ sq) (B "ms") key) (lines es) all -> all <> [] ->
  exists before since, all = before ++ since /\
    forall ds, since = fins ds ->
      shows sq (List.filter (fun q => Qc_leb 0 q) ds) (cp_page (creached E prefix internal plugins es) key).
Proof. exact (fun sq E prefix internal plugins es key all H => proj2 (page_reached sq E prefix internal plugins es key all H)). Qed.
Print Assumptions C94_final_part.
(** ... which is those received since the last flush that completed *)
Theorem C94_since_flush : forall sq (E : env (NN := XQ sq)) prefix internal plugins es i p s1 l1 ls key ds,
  grun (cflush E prefix internal plugins i p) (creached E prefix internal plugins es) = (s1, l1, None) ->
  (exists v, last_value (NN := XQ sq) (B "ms") key (lines es) v) ->
  picks (value_line (NN := XQ sq) (B "ms") key) ls (fins ds) ->
  shows sq (List.filter (fun q => Qc_leb 0 q) ds) (cp_page (creceive_all (NN := XQ sq) E prefix internal plugins ls s1) key).
Proof. exact page_since_flush. Qed.
Print Assumptions C94_since_flush.
(** a timer whose durations are all the same has no readable page: GET fails *)
Theorem C94_flat_fails_refuted : exists es key, 
  (exists v, last_value (NN := demo_num) (B "ms") key (lines es) v) /\
  cp_page (creached (NN := demo_num) demo_env (B "pre") [] [] es) key = PageFails ZeroDivisionError.
Proof.
  exists [Recv (B "t:4|ms"); Recv (B "t:4|ms")], (B "t"). split.
  - destruct (last_value_by (NN := demo_num) (B "ms") (B "t") (lines [Recv (B "t:4|ms"); Recv (B "t:4|ms")]) 4) as (v & Hv & _); [vm_compute; reflexivity|eauto].
  - assert (H : (match cp_page (creached (NN := demo_num) demo_env (B "pre") [] [] [Recv (B "t:4|ms"); Recv (B "t:4|ms")]) (B "t") with
                 | PageFails ZeroDivisionError => true | _ => false end) = true) by (vm_compute; reflexivity).
    destruct (cp_page _ _) as [|[]|]; try discriminate H. reflexivity.
Qed.
Print Assumptions C94_flat_fails_refuted.
(** with the compliant processor no metric has a page *)
Theorem C94_compliant_none_refuted : forall (NN : Num.Num) (s : mst (NN := NN)) key, mp_page s key = NoPage.
Proof. exact page_never. Qed.
Print Assumptions C94_compliant_none_refuted.
Example C94_case : exists s1 l1,
  grun (cflush (NN := demo_num) demo_env (B "pre") [] [] 10000 90) conf_state = (s1, l1, None) /\
  (exists v, last_value (NN := demo_num) (B "ms") (B "t") (lines conf_events) v) /\
  picks (value_line (NN := demo_num) (B "ms") (B "t")) later_lines (fins [lit_value (FDec false 10 0); lit_value (FDec true 1 0)]) /\
  (match cp_page conf_state (B "t") with
   | TimerPage h mx mn => (length h =? 2)%nat && neqb (Num := demo_num) mx (nofZ 6) && neqb (Num := demo_num) mn (nofZ 4)
   | _ => false end) = true.
Proof.
  destruct C28_case as (s1 & l1 & s3 & l3 & H1 & _ & H2 & H3 & _).
  exists s1, l1. split; [exact H1|]. split; [exact H2|]. split; [exact H3|]. vm_compute. reflexivity.
Qed.
