(** Everything that arrives is answered or processed. *)
From Verif Require Import Base StrFacts LineSpec LineFacts FloatFacts ProcFacts ProcSpec ReceiveFacts Client Router RouterSpec RouterFacts Server ServerSpec FrameFacts.

Lemma has_crlf_iff s : has_crlf s <-> crlf_in s. Proof. reflexivity. Qed.
Lemma lines_of_iff w ls r : lines_of w ls r <-> done w = ls /\ rest w = r.
Proof.
  split.
  - intros (-> & Hl & Hr). induction Hl as [|l ls H _ [IH1 IH2]]; cbn [map concat].
    + cbn. unfold done, rest. rewrite cut_none by exact Hr. auto.
    + unfold done, rest in *. rewrite <- !app_assoc. rewrite cut_first by exact H.
      destruct (cut _) as [|x y] eqn:E; [exfalso; revert E; apply cut_nonempty|].
      split; [|rewrite <- IH2; reflexivity]. rewrite <- IH1. reflexivity.
  - assert (forall n w, (length w <= n)%nat -> lines_of w (done w) (rest w)) as H; [|intros [<- <-]; eapply H; reflexivity].
    clear. induction n as [|n IH]; intros w Hn.
    + destruct w; [|cbn in Hn; lia]. repeat split; [constructor|]. intros (a & b & H). destruct a; discriminate.
    + destruct (cut_cases w) as [[H E]|(u & v & E & Hu & E' & Hl)].
      * unfold done, rest. rewrite E. repeat split; [constructor|exact H].
      * destruct (IH v ltac:(lia)) as (H1 & H2 & H3). unfold done, rest in *. rewrite E'.
        destruct (cut v) as [|x y] eqn:Ev; [exfalso; revert Ev; apply cut_nonempty|].
        change (removelast (u :: x :: y)) with (u :: removelast (x :: y)).
        change (List.last (u :: x :: y) []) with (List.last (x :: y) []).
        split; [|split; [constructor; assumption|exact H3]].
        cbn [map concat]. rewrite <- !app_assoc, <- H1. exact E.
Qed.

Section facts.
Context {S : Type} (process : str -> M S unit) (cfg : mon) (max : nat).
Notation srv := (@server S).
Definition ping (x : str * str) : bool := str_eqb (snd x) (m_message cfg).
Definition answers (A : list (str * str)) : list (str * str) :=
  map (fun x => (fst x, m_response cfg)) (List.filter ping A).
Definition metrics (A : list (str * str)) : list str := map snd (List.filter (fun x => negb (ping x)) A).
Lemma answers_app A A' : answers (A ++ A') = answers A ++ answers A'.
Proof. unfold answers. rewrite List.filter_app, map_app. reflexivity. Qed.
Lemma metrics_app A A' : metrics (A ++ A') = metrics A ++ metrics A'.
Proof. unfold metrics. rewrite List.filter_app, map_app. reflexivity. Qed.
Definition arrived (A : list (str * str)) (s : srv) : srv :=
  Srv (v_replies s ++ answers A) (v_pending s ++ metrics A) (v_proc s) (v_runs s).
Lemma arrived_app A A' s : arrived (A ++ A') s = arrived A' (arrived A s).
Proof. unfold arrived. cbn. rewrite answers_app, metrics_app, !app_assoc. reflexivity. Qed.
Lemma received_arrived addr data (s : srv) : fst (received cfg addr data s) = arrived [(addr, data)] s.
Proof.
  unfold received, arrived, answers, metrics. cbn [List.filter]. unfold ping. cbn [snd].
  destruct (str_eqb data (m_message cfg)); cbn; rewrite ?app_nil_r; reflexivity.
Qed.
Lemma take_lines_arrived addr ls : forall s : srv, take_lines cfg addr ls s = arrived (map (pair addr) ls) s.
Proof.
  induction ls as [|l ls IH]; intros s.
  - unfold arrived, answers, metrics. cbn. rewrite !app_nil_r. destruct s; reflexivity.
  - cbn [take_lines fold_left map]. change ((addr, l) :: map (pair addr) ls) with ([(addr, l)] ++ map (pair addr) ls).
    rewrite arrived_app, <- received_arrived. apply IH.
Qed.

(** the run calls, and what they made of the processor *)
Fixpoint processed (ds : list (str * res unit)) (p p' : S) : Prop :=
  match ds with
  | [] => p' = p
  | (d, r) :: ds' => exists p1, process d p = (p1, r) /\ processed ds' p1 p'
  end.
Lemma processed_app a b : forall p p1 p2, processed a p p1 -> processed b p1 p2 -> processed (a ++ b) p p2.
Proof.
  induction a as [|[d r] a IH]; intros p p1 p2; cbn; [intros ->; auto|].
  intros (q & H1 & H2) H. exists q. split; [exact H1|]. eapply IH; eassumption.
Qed.

Record accounted (p0 : S) (A : list (str * str)) (s : srv) : Prop := {
  ac_replies : v_replies s = answers A;
  ac_metrics : map fst (v_runs s) ++ v_pending s ≡ₚ metrics A;
  ac_proc : processed (v_runs s) p0 (v_proc s) }.
Definition in_turn (e : sevent) : Prop := match e with SRun i => i = 0%nat | _ => True end.

Definition conns_ok (ws : list (str * str)) (ks : list conn) : Prop :=
  ks = map (fun x => Conn (fst x) (rest (snd x)) true) ws.
Lemma history_ok p0 es : forall ws out, arrivals max ws es out -> forall ks (s : srv) A,
  conns_ok ws ks -> accounted p0 A s ->
  accounted p0 (A ++ out) (snd (srun process cfg max false (ks, s) es)) /\
  (Forall in_turn es -> map fst (v_runs s) ++ v_pending s = metrics A ->
   let s' := snd (srun process cfg max false (ks, s) es) in map fst (v_runs s') ++ v_pending s' = metrics (A ++ out)).
Proof.
  intros ws out H. induction H as [ws|ws addr data es out H IH|ws i addr w c ls r new r' es out Hi H1 H2 Hn Hr H IH|ws i es out H IH];
    intros ks s A Hk Ha; cbn [srun fold_left].
  - rewrite app_nil_r. cbn. auto.
  - change ((addr, data) :: out) with ([(addr, data)] ++ out). rewrite app_assoc.
    cbn [sstep]. rewrite received_arrived.
    destruct (IH ks (arrived [(addr, data)] s) (A ++ [(addr, data)]) Hk) as [I1 I2].
    { destruct Ha as [H1 H2 H3]. split; cbn.
      - rewrite answers_app, H1. reflexivity.
      - rewrite metrics_app, app_assoc, H2. reflexivity.
      - exact H3. }
    split; [exact I1|]. intros Hf He. apply I2; [inversion Hf; assumption|]. cbn. rewrite app_assoc, He, metrics_app. reflexivity.
  - apply lines_of_iff in H1 as [<- <-], H2 as [Hd <-].
    cbn [sstep]. unfold conns_ok in Hk. subst ks. rewrite list_lookup_fmap, Hi. cbn [fmap option_fmap option_map fst snd].
    unfold data_received. cbn [k_open k_buf k_addr].
    assert (Hc : cut (rest w ++ c) = new ++ [rest (w ++ c)]).
    { rewrite cut_done, <- rest_app. f_equal. rewrite done_app in Hd. apply app_inv_head in Hd. exact Hd. }
    rewrite Hc, line_loop_ok by (apply Forall_app; split; [exact Hn|constructor; [exact Hr|constructor]]).
    rewrite take_lines_arrived.
    destruct (IH (<[i:=Conn addr (rest (w ++ c)) true]> (map (fun x => Conn (fst x) (rest (snd x)) true) ws))
                 (arrived (map (pair addr) new) s) (A ++ map (pair addr) new)) as [I1 I2].
    { unfold conns_ok. rewrite list_fmap_insert. reflexivity. }
    { destruct Ha as [H1 H2 H3]. split; cbn.
      - rewrite answers_app, H1. reflexivity.
      - rewrite metrics_app, app_assoc, H2. reflexivity.
      - exact H3. }
    rewrite app_assoc. split; [exact I1|]. intros Hf He. apply I2; [inversion Hf; assumption|].
    cbn. rewrite app_assoc, He, metrics_app. reflexivity.
  - cbn [sstep]. unfold run_call. destruct (v_pending s !! i) as [d|] eqn:Ep.
    + destruct (process d (v_proc s)) as [p1 r1] eqn:Eq.
      destruct (IH ks (Srv (v_replies s) (delete i (v_pending s)) p1 (v_runs s ++ [(d, r1)])) A Hk) as [I1 I2].
      { destruct Ha as [H1 H2 H3]. split; cbn.
        - exact H1.
        - rewrite <- H2. rewrite map_app, <- app_assoc. cbn. f_equiv.
          rewrite <- (take_drop_middle (v_pending s) i d Ep) at 2. rewrite delete_take_drop.
          rewrite Permutation_middle. reflexivity.
        - eapply processed_app; [exact H3|]. exists p1. split; [exact Eq|reflexivity]. }
      split; [exact I1|]. intros Hf He. inversion Hf as [|? ? Hi Hf']; subst. cbn in Hi. subst i.
      apply I2; [exact Hf'|]. cbn. rewrite <- He, map_app, <- app_assoc. cbn.
      destruct (v_pending s) as [|d' ds]; [discriminate|]. injection Ep as ->. reflexivity.
    + destruct (IH ks s A Hk Ha) as [I1 I2]. split; [exact I1|]. intros Hf. inversion Hf; subst. apply I2. assumption.
Qed.
Lemma server_history addrs es out (p0 : S) :
  arrivals max (map (fun a => (a, [])) addrs) es out ->
  let s' := snd (srun process cfg max false (map conn_new addrs, srv_new p0) es) in
  accounted p0 out s' /\ (Forall in_turn es -> map fst (v_runs s') ++ v_pending s' = metrics out).
Proof.
  intros H. destruct (history_ok p0 es _ _ H (map conn_new addrs) (srv_new p0) []) as [H1 H2].
  - unfold conns_ok. rewrite map_map. reflexivity.
  - split; cbn; reflexivity.
  - split; [exact H1|]. intros Hf. apply H2; [exact Hf|reflexivity].
Qed.

(** ** A true result of lineReceived closing the connection *)
Fixpoint upto (ls : list str) : list str * bool :=
  match ls with
  | [] => ([], false)
  | l :: ls' => if str_eqb l (m_message cfg) then let '(x, b) := upto ls' in (l :: x, b) else ([l], true)
  end.
Lemma upto_app a b : upto (a ++ b) = if snd (upto a) then upto a else (fst (upto a) ++ fst (upto b), snd (upto b)).
Proof.
  induction a as [|l a IH]; cbn; [destruct (upto b); reflexivity|]. destruct (str_eqb l _); [|reflexivity].
  rewrite IH. destruct (upto a) as [x [|]]; cbn; [reflexivity|]. reflexivity.
Qed.
Lemma loop_closing addr ls : forall r (s : srv), Forall (fun p => (length p <= max)%nat) (ls ++ [r]) ->
  exists buf, line_loop cfg max true addr (ls ++ [r]) s = (take_lines cfg addr (fst (upto ls)) s, buf, negb (snd (upto ls))) /\
    (snd (upto ls) = false -> buf = r).
Proof.
  induction ls as [|l ls IH]; intros r s H; cbn [app line_loop upto].
  - inversion H; subst. assert ((max <? length r)%nat = false) as -> by (apply Nat.ltb_ge; assumption). exists r. auto.
  - inversion H as [|? ? Hl H']; subst. assert ((max <? length l)%nat = false) as -> by (apply Nat.ltb_ge; assumption).
    destruct (ls ++ [r]) eqn:E; [destruct ls; discriminate|]. rewrite <- E in *. cbn [andb].
    unfold received at 1. unfold take_lines. destruct (str_eqb l (m_message cfg)) eqn:El.
    + destruct (IH r (reply cfg addr s) H') as (buf & Hb & Hr). exists buf. rewrite E at 1. rewrite <- E. rewrite Hb.
      destruct (upto ls) as [x b]. cbn [fst snd fold_left] in *. unfold received at 2. rewrite El. auto.
    + cbn [fst snd fold_left negb]. unfold received. rewrite El. eexists. split; [reflexivity|discriminate].
Qed.
Lemma closed_chunks cs addr buf (s : srv) : feed_chunks cfg max true cs (Conn addr buf false) s = (Conn addr buf false, s).
Proof. induction cs as [|c cs IH]; [reflexivity|]. cbn. exact IH. Qed.
Lemma chunks_closing addr cs : forall w0 (s : srv), short max (w0 ++ concat cs) -> snd (upto (done w0)) = false ->
  exists k ls, fst (upto (done (w0 ++ concat cs))) = fst (upto (done w0)) ++ ls /\
    feed_chunks cfg max true cs (Conn addr (rest w0) true) s = (k, take_lines cfg addr ls s) /\
    k_open k = negb (snd (upto (done (w0 ++ concat cs)))).
Proof.
  induction cs as [|c cs IH]; intros w0 s Hs Hu; cbn [concat feed_chunks].
  - exists (Conn addr (rest w0) true), []. rewrite !app_nil_r, Hu. auto.
  - cbn [concat] in Hs. rewrite app_assoc in Hs.
    assert (Hp : Forall (fun p => (length p <= max)%nat) (cut (rest w0 ++ c))).
    { pose proof (Hs (w0 ++ c) (concat cs) eq_refl) as H. rewrite (cut_app (length w0)) in H by lia.
      apply Forall_app in H. apply H. }
    unfold data_received. cbn [k_open k_buf k_addr]. rewrite cut_done in Hp |- *.
    destruct (loop_closing addr (done (rest w0 ++ c)) (rest (rest w0 ++ c)) s Hp) as (buf & -> & Hb).
    rewrite <- rest_app in Hb. rewrite app_assoc.
    assert (Hd : upto (done (w0 ++ c)) = (fst (upto (done w0)) ++ fst (upto (done (rest w0 ++ c))), snd (upto (done (rest w0 ++ c))))).
    { rewrite done_app, upto_app, Hu. reflexivity. }
    destruct (snd (upto (done (rest w0 ++ c)))) eqn:Eu; cbn [negb].
    + rewrite closed_chunks. eexists _, _. split; [|split; [reflexivity|]].
      * rewrite (done_app (w0 ++ c)), upto_app, Hd. cbn [fst snd]. reflexivity.
      * rewrite (done_app (w0 ++ c)), upto_app, Hd. cbn [fst snd k_open]. reflexivity.
    + rewrite (Hb eq_refl).
      destruct (IH (w0 ++ c) (take_lines cfg addr (fst (upto (done (rest w0 ++ c)))) s) Hs ltac:(rewrite Hd; reflexivity)) as (k & ls & H1 & H2 & H3).
      exists k, (fst (upto (done (rest w0 ++ c))) ++ ls). split; [|split; [|exact H3]].
      * rewrite H1, Hd. cbn [fst]. rewrite app_assoc. reflexivity.
      * rewrite H2. unfold take_lines. rewrite fold_left_app. reflexivity.
Qed.
Lemma first_line_only addr cs (s : srv) pings l more r :
  lines_of (concat cs) (pings ++ l :: more) r -> Forall (fun x => (length x < max)%nat) (pings ++ l :: more ++ [r]) ->
  Forall (fun x => x = m_message cfg) pings -> l <> m_message cfg ->
  exists k, feed_chunks cfg max true cs (conn_new addr) s = (k, arrived (map (pair addr) (pings ++ [l])) s) /\ k_open k = false.
Proof.
  intros Hl Hs Hp Hn.
  assert (Hsh : short max (concat cs)).
  { intros a b Hab. apply lines_of_iff in Hl as [Hd Hr].
    assert (Hc : Forall (fun p => (length p < max)%nat) (cut (concat cs))).
    { rewrite cut_done, Hd, Hr, <- app_assoc. exact Hs. }
    rewrite Hab, (cut_app (length a)) in Hc by lia. apply Forall_app in Hc as [C1 C2].
    rewrite cut_done. apply Forall_app. split; [eapply Forall_impl; [exact C1|]; cbn; intros; lia|].
    constructor; [|constructor]. destruct (cut (rest a ++ b)) as [|p q] eqn:Ec; [exfalso; revert Ec; apply cut_nonempty|].
    apply prefix_piece in Ec; [|apply rest_none]. inversion C2; subst. lia. }
  destruct (chunks_closing addr cs [] s Hsh eq_refl) as (k & ls & H1 & H2 & H3).
  apply lines_of_iff in Hl as [Hd _]. cbn [app] in H1, H2, H3. rewrite Hd in H1, H3.
  assert (Hu : upto (pings ++ l :: more) = (pings ++ [l], true)).
  { clear -Hp Hn. induction Hp as [|x ps -> _ IH]; cbn.
    - apply str_eqb_neq in Hn. rewrite Hn. reflexivity.
    - rewrite str_eqb_refl. rewrite IH. reflexivity. }
  rewrite Hu in H1, H3. cbn in H1. subst ls. exists k. split; [|exact H3]. rewrite <- take_lines_arrived. exact H2.
Qed.
End facts.

Lemma type_restored (m t k : str) fs k' :
  typed_line m t k fs -> all_in name_chars k' -> typed_line (k' ++ B ":" ++ barred fs) t k' fs.
Proof.
  intros (raw & Hl & _ & Ht) Hn. exists k'.
  assert (Hk : forall c, In c k' -> In c name_chars) by exact Hn.
  split; [|split; [|exact Ht]].
  - pose proof Hl as (H1 & H2 & H3 & H4). split; [|split; [|split; assumption]].
    + exists [], []. split; [rewrite app_nil_r; reflexivity|]. split; [intros c []|]. split; [intros c []|].
      split.
      * intros c s' E. destruct k' as [|d k']; cbn in E; injection E as <- _.
        { intros Hc. vm_compute in Hc. decompose [or] Hc; try discriminate; contradiction. }
        specialize (Hk d (or_introl eq_refl)). intros Hc. revert Hk Hc. clear. intros Hk Hc.
        pose proof (ascii_cases (fun c => negb (existsb (eqc c) ws_chars && existsb (eqc c) name_chars)) ltac:(vm_compute; reflexivity) d) as H.
        assert (existsb (eqc d) ws_chars = true) as E1 by (apply existsb_exists; exists d; split; [exact Hc|apply eqc_refl]).
        assert (existsb (eqc d) name_chars = true) as E2 by (apply existsb_exists; exists d; split; [exact Hk|apply eqc_refl]).
        cbn beta in H. rewrite E1, E2 in H. discriminate.
      * intros c s' E. eapply line_tail; [exact Hl|]. exists s'. exact E.
    + intros Hc. apply Hk in Hc. vm_compute in Hc. decompose [or] Hc; try discriminate; contradiction.
  - apply normalize_key_spec. apply normalize_key_id. exact Hn.
Qed.
