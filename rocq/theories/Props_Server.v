(** The servers (C73, C87, C97). *)
From Verif Require Import Base StrFacts Server ServerSpec ServerFacts FrameFacts FrameLong.

(** C73.  Datagrams and lines of TCP connections arrive in any interleaving, in any chunks,
    and the reactor runs the scheduled calls whenever and in whatever order.  [out] is what
    arrived.  Each ping is answered, to its sender and in order; every other text is
    processed or still scheduled, exactly once; the processor's state is that after
    the texts processed so far; when the reactor runs calls in the order they were
    scheduled, they are processed in the order of arrival. *)
Theorem C73_served : forall S (process : str -> M S unit) cfg max addrs es out (p0 : S),
  arrivals max (map (fun a => (a, [])) addrs) es out ->
  let s' := snd (srun process cfg max false (map conn_new addrs, srv_new p0) es) in
  let is_ping := fun x : str * str => str_eqb (snd x) (m_message cfg) in
  let metrics := map snd (List.filter (fun x => negb (is_ping x)) out) in
  v_replies s' = map (fun x => (fst x, m_response cfg)) (List.filter is_ping out) /\
  map fst (v_runs s') ++ v_pending s' ≡ₚ metrics /\
  processed process (v_runs s') p0 (v_proc s') /\
  (Forall in_turn es -> map fst (v_runs s') ++ v_pending s' = metrics).
Proof.
  intros S process cfg max addrs es out p0 H. destruct (server_history process cfg max addrs es out p0 H) as [[H1 H2 H3] H4].
  cbv zeta. auto.
Qed.
Print Assumptions C73_served.
Definition demo_mon : mon := Mon (B "ping") (B "pong").
Definition demo_events : list sevent :=
  [SDatagram (B "u") (B "a:1|c"); SChunk 0 (B "b:2|c" ++ [c_cr]); SRun 0; SChunk 0 ([c_nl] ++ B "ping" ++ CRLF ++ B "c:3");
   SDatagram (B "u") (B "ping"); SRun 0].
Example C73_case : arrivals 100 [(B "t", [])] demo_events
  [(B "u", B "a:1|c"); (B "t", B "b:2|c"); (B "t", B "ping"); (B "u", B "ping")] /\ Forall in_turn demo_events.
Proof.
  split; [|repeat constructor]. unfold demo_events. constructor.
  apply (ar_chunk _ _ _ (B "t") [] _ [] [] [] (B "b:2|c" ++ [c_cr])); try (apply lines_of_iff; split; vm_compute; reflexivity);
    [reflexivity|constructor|apply Nat.leb_le; reflexivity|]. constructor.
  apply (ar_chunk _ _ _ (B "t") (B "b:2|c" ++ [c_cr]) _ [] (B "b:2|c" ++ [c_cr]) [B "b:2|c"; B "ping"] (B "c:3"));
    try (apply lines_of_iff; split; vm_compute; reflexivity);
    [reflexivity|repeat constructor; apply Nat.leb_le; reflexivity|apply Nat.leb_le; reflexivity|]. repeat constructor.
Qed.

(** C87.  [lineReceived] returns the result of callLater, which is true as a truth value.  If
    Twisted takes a true result to mean that the connection is to be dropped (as its line
    receiver and reactor do), a TCP connection is served up to and including its first line
    that is not a ping: the rest of what the client sends is lost. *)
Theorem C87_one_line_per_connection : forall S cfg max addr cs (s : @server S) pings l more r,
  lines_of (concat cs) (pings ++ l :: more) r -> Forall (fun x => (length x < max)%nat) (pings ++ l :: more ++ [r]) ->
  Forall (fun x => x = m_message cfg) pings -> l <> m_message cfg ->
  exists k s', feed_chunks cfg max true cs (conn_new addr) s = (k, s') /\ k_open k = false /\
    v_pending s' = v_pending s ++ [l] /\
    v_replies s' = v_replies s ++ map (fun _ => (addr, m_response cfg)) pings.
Proof.
  intros S cfg max addr cs s pings l more r Hl Hs Hp Hn.
  destruct (first_line_only (fun _ p => (p, Ok tt)) cfg max addr cs s pings l more r Hl Hs Hp Hn) as (k & E & Hk).
  exists k. eexists. split; [exact E|]. split; [exact Hk|]. unfold arrived. cbn.
  rewrite map_app. unfold metrics, answers, ping. rewrite !List.filter_app. cbn [map List.filter snd].
  apply str_eqb_neq in Hn. rewrite Hn. cbn [negb].
  clear -Hp. induction Hp as [|x ps -> Hp [IH1 IH2]]; cbn; [rewrite app_nil_r; auto|].
  rewrite str_eqb_refl. cbn. split; [exact IH1|].
  apply app_inv_head in IH2. rewrite IH2. reflexivity.
Qed.
Print Assumptions C87_one_line_per_connection.
Example C87_case : lines_of (concat [B "ping" ++ CRLF ++ B "a:1|c" ++ CRLF ++ B "b:2|c"; CRLF]) ([B "ping"] ++ B "a:1|c" :: [B "b:2|c"]) [].
Proof. apply lines_of_iff. split; vm_compute; reflexivity. Qed.

(** C97.  The lines before the first one that is longer than [max] are served, however the
    stream is cut into chunks; then the connection is closed and nothing that follows is
    served, not even a line of allowed length.  [bad] may be the unfinished last line. *)
Theorem C97_long_line : forall S cfg max addr cs (s : @server S) ls r good bad more,
  lines_of (concat cs) ls r -> ls ++ [r] = good ++ bad :: more ->
  Forall (fun x => (length x < max)%nat) good -> (max < length bad)%nat ->
  exists k, feed_chunks cfg max false cs (conn_new addr) s = (k, fold_left (fun s l => fst (received cfg addr l s)) good s) /\
    k_open k = false.
Proof. intros S cfg max addr cs s ls r good bad more H1 H2 H3 H4. eexists. split; [eapply long_line; eassumption|reflexivity]. Qed.
Print Assumptions C97_long_line.
(** lines end with CR LF: a client that ends them with LF alone is never heard, whatever it
    sends and however long it waits *)
Theorem C97_newlines_only : forall S cfg max addr cs (s : @server S), ~ has_crlf (concat cs) ->
  snd (feed_chunks cfg max false cs (conn_new addr) s) = s.
Proof. exact @no_line. Qed.
Print Assumptions C97_newlines_only.
Example C97_case : let cs := [B "a:1|c" ++ [c_cr]; [c_nl] ++ B "toolong"; CRLF ++ B "b:2|c" ++ CRLF] in
  lines_of (concat cs) [B "a:1|c"; B "toolong"; B "b:2|c"] [] /\
  [B "a:1|c"; B "toolong"; B "b:2|c"] ++ [[]] = [B "a:1|c"] ++ B "toolong" :: [B "b:2|c"; []] /\
  (length (B "a:1|c") < 6)%nat /\ (6 < length (B "toolong"))%nat.
Proof.
  cbv zeta. split; [apply lines_of_iff; split; vm_compute; reflexivity|]. split; [reflexivity|].
  split; apply Nat.ltb_lt; reflexivity.
Qed.
Example C97_newline_case : ~ has_crlf (concat [B "a:1|c
b:2|"; B "c
"]).
Proof.
  match goal with |- ~ has_crlf ?w => assert (H : lines_of w [] w) by (apply lines_of_iff; split; vm_compute; reflexivity) end.
  apply H.
Qed.
