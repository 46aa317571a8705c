(** Facts about Relay.v. *)
From Verif Require Import Base StrFacts Num NumFacts Env Stats Glob Metrics Gen GenFacts Processor
  LineSpec LineFacts FloatFacts ProcFacts ProcSpec ReceiveFacts ReceiveFacts2 ReceiveFacts3 PlugFacts
  Sched FlushInv FlushOk SchedFacts
  Client ClientFacts Router RouterSpec RouterFacts RouterProps Server ServerSpec FrameFacts ServerFacts Daemon DaemonFacts
  Links LinkFacts Relay RelaySpec.
Open Scope Z_scope.

(** ** What the rules send for a line, whether or not one of them raises *)
Section routing.
Context (G : engine) {S : Type} (inner : str -> str -> str -> list str -> M S unit).
Notation rst := (@rst S).

Lemma rule_run_stops j cw tw c t add : cond_of cw c -> target_of G true j tw t add -> t <> TTrue ->
  forall ms (s s' : rst) e, (j + length add <= length (r_links s))%nat ->
  rule_run G (c, t) ms s = (s', Exn e) ->
  exists before m after mid ts, ms = before ++ m :: after /\ applies_all G (cw, tw) before mid ts /\
    (~ exists o ts', applies G (cw, tw) m o ts') /\ s' = sends (map (pair j) ts) s.
Proof.
  intros Hc Ht Hnt. induction ms as [|m ms IH]; intros s s' e Hl; cbn [rule_run fst snd]; [discriminate|].
  unfold bnd, lift_, ret. destruct (cond_run c m) as [b|x] eqn:Ec.
  2:{ intros [= <- <-]. exists [], m, ms, [], []. split; [reflexivity|]. split; [constructor|]. split; [|reflexivity].
      intros (o & ts' & Ha). inversion Ha; subst;
        match goal with H : matches _ _ _ |- _ => apply (matches_iff cw c m _ Hc) in H; rewrite H in Ec; discriminate end. }
  pose proof Ec as Hm. apply (matches_iff cw c m b Hc) in Hm. destruct b.
  - destruct (target_run G t m s) as [s1 [here|x]] eqn:Et.
    + apply (target_run_iff G inner true j tw t add) in Et as (ts & He & ->); [|assumption..].
      destruct (rule_run G (c, t) ms _) as [s2 [rest|x]] eqn:Er; [discriminate|]. intros [= <- <-].
      apply IH in Er as (bf & m' & af & mid & tss & -> & Ha & Hs & ->); [|rewrite sends_length; exact Hl].
      exists (m :: bf), m', af, (here ++ mid), (ts ++ tss). split; [reflexivity|]. split; [econstructor; [eapply ap_hit; eassumption|exact Ha]|].
      split; [exact Hs|]. rewrite map_app, sends_app. reflexivity.
    + pose proof Et as Hx. apply (target_run_exn G inner true j tw t add) in Hx; [|assumption..]. subst s1. intros [= <- <-].
      exists [], m, ms, [], []. split; [reflexivity|]. split; [constructor|]. split; [|reflexivity].
      intros (o & ts' & Ha). inversion Ha as [? ? ? Hf|? ? ? ? ? Hm' He]; subst.
      * pose proof (matches_fun _ _ _ _ Hm Hf). discriminate.
      * rewrite (proj2 (target_run_iff G inner true j tw t add m s (sends (map (pair j) ts') s) o Ht Hnt Hl)) in Et; [discriminate|eauto].
  - destruct (rule_run G (c, t) ms s) as [s2 [rest|x]] eqn:Er; [discriminate|]. intros [= <- <-].
    apply IH in Er as (bf & m' & af & mid & tss & -> & Ha & Hs & ->); [|exact Hl].
    exists (m :: bf), m', af, ([m] ++ mid), ([] ++ tss). split; [reflexivity|].
    split; [econstructor; [apply ap_skip; exact Hm|exact Ha]|]. split; [exact Hs|reflexivity].
Qed.
Lemma rules_run_stops rws : forall rs adds j ms (s s' : rst) e,
  built G true j rws rs adds -> Forall (fun r => snd r <> TTrue) rs -> (j + length adds <= length (r_links s))%nat ->
  rules_run G rs ms s = (s', Exn e) -> exists sent, stops G j rws ms sent /\ s' = sends sent s.
Proof.
  induction rws as [|[cw tw] rws IH]; intros rs adds j ms s s' e Hb Hok Hl;
    inversion Hb as [|? ? ? c t add ? rs0 adds0 H5 H6 H7]; subst; cbn [rules_run]; [discriminate|].
  rewrite app_length in Hl. inversion_clear Hok as [|? ? Hnt Hok']. cbn [snd] in Hnt. destruct ms as [|m ms]; [discriminate|].
  pose proof (target_of_redirect G true _ _ _ _ H6 Hnt) as Hr.
  unfold bnd. destruct (rule_run G (c, t) (m :: ms) s) as [s1 [mid|x]] eqn:Er.
  - apply (rule_run_iff G inner true j cw tw c t add) in Er as (ts & Ha & ->); [|assumption|assumption|assumption|lia].
    intros H. eapply IH in H as (sent & Hs & ->); [|eassumption|assumption|rewrite sends_length; lia].
    exists (map (pair j) ts ++ sent). split; [|rewrite sends_app; reflexivity].
    eapply st_later; [exact Ha|]. rewrite (is_redirect_cond cw []), <- Hr. exact Hs.
  - intros [= <- <-]. apply (rule_run_stops j cw tw c t add) in Er as (bf & m' & af & mid & ts & Hms & Ha & Hs & ->); [|assumption|assumption|assumption|lia].
    rewrite Hms. exists (map (pair j) ts). split; [|reflexivity]. eapply st_here; eassumption.
Qed.

Lemma applies_all_prefix r a m b out ts : applies_all G r (a ++ m :: b) out ts -> exists o t, applies G r m o t.
Proof.
  revert out ts. induction a as [|x a IH]; intros out ts H; inversion H; subst; eauto.
Qed.
Lemma stops_routes rws : forall j ms sent out sent', stops G j rws ms sent -> routes G j rws ms out sent' -> False.
Proof.
  induction rws as [|r rws IH]; intros j ms sent out sent' Hs Hr; inversion Hs; subst; inversion Hr as [|? ? ? ? mid' ? ts' sent'' Ha Hro]; subst.
  - match goal with H : ~ _ |- _ => apply H end. eapply applies_all_prefix, Ha.
  - match goal with H : applies_all _ _ ms ?mid ?ts |- _ => destruct (applies_all_fun G _ _ _ _ H _ _ Ha) as [-> ->] end. eapply IH; eassumption.
Qed.
Lemma first_stuck r : forall a m b a' m' b' o t o' t', a ++ m :: b = a' ++ m' :: b' ->
  applies_all G r a o t -> applies_all G r a' o' t' -> (~ exists ms ts, applies G r m ms ts) -> (~ exists ms ts, applies G r m' ms ts) -> a = a'.
Proof.
  induction a as [|x a IH]; intros m b a' m' b' o t o' t' He H1 H2 N1 N2; destruct a' as [|x' a'].
  - reflexivity.
  - injection He as -> _. inversion H2; subst. exfalso. eauto.
  - injection He as <- _. inversion H1; subst. exfalso. eauto.
  - injection He as <- He. inversion H1; inversion H2; subst. f_equal. eapply IH; eassumption.
Qed.
Lemma stops_fun rws : forall j ms s s', stops G j rws ms s -> stops G j rws ms s' -> s = s'.
Proof.
  induction rws as [|r rws IH]; intros j ms s s' H H'; inversion H as [? ? ? a m b mid ts Ha Hn E1 E2 E3 E4|? ? ? ? mid ts sent Ha Hs]; subst;
    inversion H' as [? ? ? a' m' b' mid' ts' Ha' Hn' E1' E2' E3' E4'|? ? ? ? mid' ts' sent' Ha' Hs']; subst.
  - assert (a' = a) as -> by (eapply (first_stuck r a' m' b' a m b); eauto).
    destruct (applies_all_fun G _ _ _ _ Ha _ _ Ha') as [_ ->]. reflexivity.
  - exfalso. apply Hn. eapply applies_all_prefix, Ha'.
  - exfalso. apply Hn'. eapply applies_all_prefix, Ha.
  - destruct (applies_all_fun G _ _ _ _ Ha _ _ Ha') as [-> ->]. rewrite (IH _ _ _ _ Hs Hs'). reflexivity.
Qed.
Lemma line_sends_fun rws m s s' : line_sends G rws m s -> line_sends G rws m s' -> s = s'.
Proof.
  intros H H'. destruct H as [Hn|t k fs out sent Ht Hr|t k fs sent Ht Hs]; destruct H' as [Hn'|t' k' fs' out' sent' Ht' Hr'|t' k' fs' sent' Ht' Hs'].
  all: try (exfalso; eapply Hn; eassumption); try (exfalso; eapply Hn'; eassumption); try reflexivity.
  all: destruct (typed_line_fun _ _ _ _ _ _ _ Ht Ht') as (<- & <- & <-).
  - eapply routes_fun; eassumption.
  - exfalso. eapply stops_routes; eassumption.
  - exfalso. eapply stops_routes; eassumption.
  - eapply stops_fun; eassumption.
Qed.
Lemma forwards_fun rws i m ts ts' : forwards G rws i m ts -> forwards G rws i m ts' -> ts = ts'.
Proof. intros (s & H & ->) (s' & H' & ->). rewrite (line_sends_fun _ _ _ _ H H'). reflexivity. Qed.

(** one line through the router *)
Lemma process_sends config ls rs rws (s : rst) m :
  build_rules G true config [] = (ls, Ok rs) -> rules_of config rws -> length (r_links s) = length ls ->
  exists sent, line_sends G rws m sent /\
    r_links (fst (r_process G inner rs m s)) = r_links (sends sent s).
Proof.
  intros Hb Hr Hl. destruct (decode m) as [[[t raw] fs]|] eqn:Ed.
  - assert (Ht : typed_line m t (normalize_key raw) fs) by (apply typed_line_decode; eauto).
    rewrite (process_typed G inner rs m _ _ _ s Ht).
    destruct (whole_built G config ls rs rws s Hb Hr Hl) as (adds & Hbu & Hok & Hle).
    unfold route, bnd. destruct (rules_run G rs [(t, normalize_key raw, fs)] s) as [s' r] eqn:E. destruct r as [o|x].
    + destruct (proj1 (rules_run_iff G inner true rws rs adds 0 [(t, normalize_key raw, fs)] s s' (survivors o) Hbu Hok Hle)) as (sent & Hs & ->); [eauto|].
      exists sent. split; [eapply ls_done; eassumption|]. destruct o as [ms|]; [|reflexivity].
      destruct (hand_over inner ms (sends sent s)) as [s2 r2] eqn:Eh. apply hand_over_iff in Eh as (p' & _ & ->). reflexivity.
    + apply (rules_run_stops rws rs adds 0) in E as (sent & Hs & ->); [|assumption..].
      exists sent. split; [eapply ls_stop; eassumption|reflexivity].
  - exists []. split.
    + apply ls_bad. intros t k fs Ht. apply typed_line_decode in Ht as (raw & Hd & _). congruence.
    + unfold r_process. rewrite base_process_decode, Ed. reflexivity.
Qed.
Lemma texts_omap i sent : texts_to i sent = omap (fun x => if decide (fst x = i) then Some (snd x) else None) sent.
Proof.
  induction sent as [|x sent IH]; [reflexivity|]. unfold texts_to in *. rewrite filter_cons. cbn [omap list_omap].
  destruct (decide (fst x = i)); cbn [map]; rewrite IH; reflexivity.
Qed.
Lemma process_forwards config ls rs rws (s : rst) m i :
  build_rules G true config [] = (ls, Ok rs) -> rules_of config rws -> length (r_links s) = length ls ->
  exists ts, forwards G rws i m ts /\
    r_links (fst (r_process G inner rs m s)) !! i = written ts <$> r_links s !! i.
Proof.
  intros Hb Hr Hl. destruct (process_sends config ls rs rws s m Hb Hr Hl) as (sent & Hs & He).
  exists (texts_to i sent). split; [exists sent; split; [exact Hs|apply texts_omap]|]. rewrite He. apply sends_links.
Qed.
End routing.

(** ** The client of a UDP redirect: its callback raises from the second announcement on, and
    nothing else differs from a client whose callback never raises *)
Definition calm_cfg : ucfg := Ucfg 1000 (Some (Ccb (fun _ => []) (fun _ => None))) None.
Lemma calm_quiet : quiet calm_cfg.
Proof. split; [intros c n [= <-]; auto|discriminate]. Qed.
Lemma flush_calm s : flush_items redirect_cfg s = flush_items calm_cfg s.
Proof. reflexivity. Qed.
(** flushing a queue that cannot go out keeps it *)
Lemma flush_idle s : u_gateway s = None \/ u_transport s = None -> (length (u_queue s) <= 1000)%nat -> flush_items calm_cfg s = s.
Proof.
  intros Hg Hq. unfold flush_items.
  assert (H : forall q p, (length (p ++ q) <= 1000)%nat ->
    fold_left (fun s it => uc_write calm_cfg it s) q (uset_queue p s) = uset_queue (p ++ q) s).
  { induction q as [|it q IH]; intros p Hp; [rewrite app_nil_r; reflexivity|]. cbn [fold_left].
    replace (uc_write calm_cfg it (uset_queue p s)) with (uset_queue (p ++ [it]) s).
    - rewrite IH; [|rewrite <- app_assoc; exact Hp]. rewrite <- app_assoc. reflexivity.
    - unfold uc_write. cbn [u_gateway u_transport uset_queue u_queue]. unfold queue_write. cbn [uc_limit calm_cfg].
      rewrite app_length in Hp. cbn [length] in Hp.
      assert (Hlt : (length p <? 1000)%nat = true) by (apply Nat.ltb_lt; lia). rewrite Hlt.
      destruct (u_gateway s); [|reflexivity]. destruct (u_transport s); [|reflexivity]. destruct Hg; discriminate. }
  rewrite H by exact Hq. destruct s; reflexivity.
Qed.
Lemma flush_nothing s : u_queue s = [] -> flush_items calm_cfg s = s.
Proof. intros H. unfold flush_items. rewrite H. destruct s; cbn in *; subst; reflexivity. Qed.
Definition announced_ok (s : uclient) : Prop := (0 < u_connects s)%nat -> u_gateway s <> None.
Lemma step_calm N e s : (length (u_queue s) <= 1000)%nat -> (u_gateway s <> None -> u_transport s <> None -> u_queue s = []) ->
  announced_ok s -> fst (ustep N redirect_cfg e s) = fst (ustep N calm_cfg e s).
Proof.
  intros Hq Hu Ha. destruct e as [it|ip|t| |]; try reflexivity.
  cbn [ustep]. unfold host_resolved, bnd, mod_, run_connect. cbn [fst snd uc_connect redirect_cfg calm_cfg u_connects cc_writes cc_raises fold_left].
  destruct (u_connects s =? 0)%nat eqn:E0; [reflexivity|]. apply Nat.eqb_neq in E0. cbn [fst].
  assert (Hg : u_gateway s <> None) by (apply Ha; lia).
  symmetry. destruct (u_transport s) eqn:Et.
  - apply flush_nothing. cbn [u_queue]. apply Hu; [exact Hg|discriminate].
  - apply flush_idle; [right; reflexivity|exact Hq].
Qed.
Lemma create_calm is_ip h : fst (uc_create redirect_cfg is_ip h uc_init) = fst (uc_create calm_cfg is_ip h uc_init).
Proof. unfold uc_create. destruct (is_ip h); reflexivity. Qed.
Lemma calm_shape N is_ip h evs : let s := urun N calm_cfg evs (fst (uc_create calm_cfg is_ip h uc_init)) in
  (length (u_queue s) <= 1000)%nat /\ (u_gateway s <> None -> u_transport s <> None -> u_queue s = []) /\ announced_ok s.
Proof.
  intros s. pose proof (history_refines N calm_cfg calm_quiet is_ip h evs) as [r1 r2 r3 r4 r5 r6 r7 r8 r9 r10 r11]. fold s in r1, r2, r3, r4, r7, r8, r9, r10, r11.
  split; [rewrite r4; exact r5|]. split.
  - intros Hg Ht. rewrite r4. apply r6. rewrite r1, r2. destruct (u_gateway s), (u_transport s); try congruence; reflexivity.
  - intros Hc. unfold s in Hc. rewrite create_connects in Hc. cbn [has_connect calm_cfg uc_connect] in Hc.
    intros Hg. rewrite Hg in r1. cbn [some_b] in r1.
    assert (Hr : forall evs a, a_resolved (a_run 1000 evs a) = (a_resolved a || (0 <? length (resolutions evs))%nat)%bool).
    { clear. induction evs as [|e evs IH]; intros a; [cbn; rewrite orb_false_r; reflexivity|].
      change (a_run 1000 (e :: evs) a) with (a_run 1000 evs (a_step 1000 a e)). rewrite IH.
      destruct e as [it|ip|[t|]| |]; cbn [a_step resolutions flat_map app length]; unfold release; cbn [a_resolved a_connected].
      - destruct (a_resolved a && a_connected a) eqn:Er; cbn [a_resolved]; [apply andb_prop in Er as [-> _]; reflexivity|].
        destruct (length (a_waiting a) <? 1000)%nat; reflexivity.
      - rewrite orb_true_r. destruct (true && _); reflexivity.
      - destruct (a_resolved a); reflexivity.
      - destruct (_ && _); reflexivity.
      - reflexivity.
      - reflexivity. }
    cbn [uc_limit calm_cfg] in r1. rewrite Hr in r1. cbn [a_init a_resolved] in r1. apply orb_false_iff in r1 as [r1a r1b].
    apply Nat.ltb_ge in r1b. rewrite r1a in Hc. lia.
Qed.
Lemma run_calm N is_ip h evs : urun N redirect_cfg evs (fst (uc_create redirect_cfg is_ip h uc_init)) =
  urun N calm_cfg evs (fst (uc_create calm_cfg is_ip h uc_init)).
Proof.
  induction evs as [|e evs IH] using rev_ind; [apply create_calm|]. unfold urun in *. rewrite !fold_left_app, IH. cbn [fold_left].
  destruct (calm_shape N is_ip h evs) as (A & B & C). apply step_calm; assumption.
Qed.

(** ** A redirect of a daemon *)
(** the texts written to a redirect and what happened to it, in order *)
Inductive lk := LkText (t : str) | LkEvent (e : kevent).
Definition lk_step (N : unet) (l : rlink) (x : lk) : rlink :=
  match x with LkText t => fst (link_write t l) | LkEvent e => link_step N e l end.
Definition lk_run (N : unet) (h : list lk) (l : rlink) : rlink := fold_left (lk_step N) h l.
Definition lk_texts (h : list lk) : list str := flat_map (fun x => match x with LkText t => [t] | _ => [] end) h.
Definition lk_events (h : list lk) : list kevent := flat_map (fun x => match x with LkEvent e => [e] | _ => [] end) h.
(** what happened to redirect [i] *)
Definition happened (i : nat) (es : list fevent) : list kevent :=
  flat_map (fun e => match e with FLink j e => if decide (i = j) then [e] else [] | _ => [] end) es.
Lemma lk_written N ts l : lk_run N (map LkText ts) l = written ts l.
Proof. revert l. induction ts as [|t ts IH]; intros l; [reflexivity|]. apply IH. Qed.
Lemma lk_app N a b l : lk_run N (a ++ b) l = lk_run N b (lk_run N a l).
Proof. apply fold_left_app. Qed.
Lemma lk_texts_app a b : lk_texts (a ++ b) = lk_texts a ++ lk_texts b. Proof. apply flat_map_app. Qed.
Lemma lk_events_app a b : lk_events (a ++ b) = lk_events a ++ lk_events b. Proof. apply flat_map_app. Qed.
Lemma lk_texts_map ts : lk_texts (map LkText ts) = ts /\ lk_events (map LkText ts) = [].
Proof. induction ts as [|t ts [IH1 IH2]]; [split; reflexivity|]. split; [unfold lk_texts in *; cbn; rewrite IH1; reflexivity|exact IH2]. Qed.

Section relay.
Context `{NN : Num} {S : Type} (G : engine).
Context (inner : str -> str -> str -> list str -> M S unit) (fl : gen S).
Context (cfg : mon) (max : nat) (closes : bool) (refuses : nat -> dp -> option exn).
Context (N : nat -> unet).
Context (config : str) (ls : list lspec) (rs : list (rule G)) (rws : list rule_text).
Context (Hb : build_rules G true config [] = (ls, Ok rs)) (Hr : rules_of config rws).
Notation step := (dstep G inner fl rs cfg max closes refuses).
Notation fst_ := (fstep G inner fl rs cfg max closes refuses N).
Notation frun_ := (frun G inner fl rs cfg max closes refuses N).

(** [ms] are the lines given to the router by one event *)
Definition moved (d d' : @daemon NN S) (ms : list str) : Prop :=
  d_order d' = d_order d ++ ms /\ length (d_links d') = length ls /\
  forall i, exists tss, Forall2 (forwards G rws i) ms tss /\ d_links d' !! i = written (concat tss) <$> d_links d !! i.
Lemma moved_none d d' : length (d_links d) = length ls -> d_order d' = d_order d -> d_links d' = d_links d -> moved d d' [].
Proof.
  intros Hl Ho Hk. split; [rewrite app_nil_r; exact Ho|]. rewrite Hk. split; [exact Hl|]. intros i. exists []. split; [constructor|].
  destruct (d_links d !! i); reflexivity.
Qed.
Lemma moved_line d d' m : length (d_links d) = length ls -> d_order d' = d_order d ++ [m] ->
  d_links d' = r_links (fst (r_process G inner rs m (v_proc (d_srv d)))) -> moved d d' [m].
Proof using Hb Hr.
  intros Hl Ho Hk. split; [exact Ho|]. rewrite Hk. split; [apply (process_length G inner config); [exact Hb|exact Hl]|].
  intros i. destruct (process_forwards G inner config ls rs rws (v_proc (d_srv d)) m i Hb Hr Hl) as (ts & Hf & He).
  exists [ts]. split; [constructor; [exact Hf|constructor]|]. cbn [concat]. rewrite app_nil_r. exact He.
Qed.
Lemma step_moved d e : length (d_links d) = length ls -> (forall i l, e <> DLink i l) -> exists ms, moved d (step d e) ms.
Proof using Hb Hr.
  intros Hl Hn. destruct e as [e|m| |i l|i]; cbn [dstep].
  - destruct (sstep _ cfg max closes (d_conns d, d_srv d) e) as [ks s] eqn:E.
    destruct e as [a data|i data|i]; cbn [sstep] in E.
    + injection E as <- <-. exists []. apply moved_none; [exact Hl|apply app_nil_r|].
      unfold d_links, received. cbn [d_srv]. destruct (str_eqb _ _); reflexivity.
    + exists []. apply moved_none; [exact Hl|apply app_nil_r|]. unfold d_links. cbn [d_srv].
      destruct (d_conns d !! i) as [k|]; [|injection E as <- <-; reflexivity].
      unfold data_received in E. destruct (k_open k); [|injection E as <- <-; reflexivity].
      destruct (line_loop cfg max closes _ _ (d_srv d)) as [[s1 b] o] eqn:El. injection E as _ <-. rewrite (loop_proc _ _ _ _ _ _ _ _ _ El). reflexivity.
    + injection E as <- <-. unfold run_call. destruct (v_pending (d_srv d) !! i) as [m|].
      * exists [m]. destruct (r_process G inner rs m (v_proc (d_srv d))) as [p r] eqn:Ep.
        apply moved_line; [exact Hl|reflexivity|]. rewrite Ep. reflexivity.
      * exists []. apply moved_none; [exact Hl|apply app_nil_r|reflexivity].
  - destruct (r_process G inner rs m (v_proc (d_srv d))) as [p r] eqn:Ep. exists [m].
    apply moved_line; [exact Hl|reflexivity|]. rewrite Ep. reflexivity.
  - exists []. apply moved_none; [exact Hl|reflexivity|reflexivity].
  - exfalso. eapply Hn. reflexivity.
  - exists []. destruct (d_live d !! i) as [[k g]|]; [|apply moved_none; [exact Hl|reflexivity|reflexivity]].
    destruct (gnext g (d_proc d)) as [p [v g'| |x]]; [destruct (refuses _ _)|..]; (apply moved_none; [exact Hl|reflexivity|reflexivity]).
Qed.

(** from any state: [ms] are the lines handled meanwhile *)
Theorem relay_from d0 es : length (d_links d0) = length ls ->
  let d := frun_ d0 es in
  length (d_links d) = length ls /\
  exists ms, d_order d = d_order d0 ++ ms /\
  forall i, (i < length ls)%nat -> exists h tss, Forall2 (forwards G rws i) ms tss /\ lk_texts h = concat tss /\ lk_events h = happened i es /\
    d_links d !! i = lk_run (N i) h <$> d_links d0 !! i.
Proof using Hb Hr.
  intros Hl. induction es as [|e es IH] using rev_ind; cbv zeta.
  - split; [exact Hl|]. exists []. split; [rewrite app_nil_r; reflexivity|].
    intros i Hi. exists [], []. split; [constructor|]. split; [reflexivity|]. split; [reflexivity|].
    cbn. destruct (d_links d0 !! i); reflexivity.
  - unfold frun. rewrite fold_left_app. cbn [fold_left]. fold (frun_ d0 es).
    set (d := frun_ d0 es) in *. cbv zeta in IH. destruct IH as (IHl & ms & IHo & IH).
    assert (Hd : forall e', (forall i l, e' <> DLink i l) -> (forall i, happened i [e] = []) -> fst_ d e = step d e' ->
      length (d_links (fst_ d e)) = length ls /\
        exists ms, d_order (fst_ d e) = d_order d0 ++ ms /\
        forall i, (i < length ls)%nat -> exists h tss, Forall2 (forwards G rws i) ms tss /\ lk_texts h = concat tss /\
        lk_events h = happened i (es ++ [e]) /\ d_links (fst_ d e) !! i = lk_run (N i) h <$> d_links d0 !! i).
    { intros e' Hn Hh He. rewrite He. destruct (step_moved d e' IHl Hn) as (ms' & Ho & Hl' & Hm). split; [exact Hl'|].
      exists (ms ++ ms'). split; [rewrite Ho, IHo, app_assoc; reflexivity|].
      intros i Hi. destruct (IH i Hi) as (h & tss & H1 & H2 & H3 & H4). destruct (Hm i) as (tss' & H5 & H6).
      exists (h ++ map LkText (concat tss')), (tss ++ tss'). destruct (lk_texts_map (concat tss')) as [M1 M2].
      split; [apply Forall2_app; assumption|]. split; [rewrite lk_texts_app, M1, H2, concat_app; reflexivity|].
      split; [rewrite lk_events_app, M2, H3; unfold happened; rewrite flat_map_app; fold (happened i es) (happened i [e]); rewrite Hh, !app_nil_r; reflexivity|].
      rewrite H6, H4. destruct (d_links d0 !! i); [|reflexivity]. cbn [fmap option_fmap option_map]. rewrite lk_app, lk_written. reflexivity. }
    destruct e as [e|m| |i|j e]; [eapply Hd; [| |reflexivity]; [discriminate|reflexivity]..|]. clear Hd.
    unfold fstep, drun. cbn [fdevent]. destruct (d_links d !! j) as [l|] eqn:El.
    + cbn [fold_left dstep]. set (d' := Dm _ _ _ _ _ _ _ _ _).
      assert (Hk : d_links d' = <[j := link_step (N j) e l]> (d_links d)) by reflexivity.
      assert (Ho : d_order d' = d_order d) by reflexivity. clearbody d'. rewrite Hk, Ho, insert_length. split; [exact IHl|].
      exists ms. split; [exact IHo|].
      intros i Hi. destruct (IH i Hi) as (h & tss & H1 & H2 & H3 & H4). destruct (decide (i = j)) as [->|Hne].
      * exists (h ++ [LkEvent e]), tss. split; [exact H1|]. split; [rewrite lk_texts_app; cbn; rewrite app_nil_r; exact H2|].
        split; [rewrite lk_events_app, H3; unfold happened; rewrite flat_map_app; cbn; rewrite decide_True by reflexivity; reflexivity|].
        rewrite list_lookup_insert by (rewrite IHl; exact Hi). rewrite El in H4. destruct (d_links d0 !! j); [|discriminate]. cbn in H4 |- *. injection H4 as ->.
        rewrite lk_app. reflexivity.
      * exists h, tss. split; [exact H1|]. split; [exact H2|]. split.
        { rewrite H3. unfold happened. rewrite flat_map_app. cbn. rewrite decide_False by exact Hne. rewrite app_nil_r. reflexivity. }
        rewrite list_lookup_insert_ne by congruence. exact H4.
    + split; [exact IHl|]. exists ms. split; [exact IHo|].
      intros i Hi. destruct (IH i Hi) as (h & tss & H1 & H2 & H3 & H4). exists h, tss. split; [exact H1|]. split; [exact H2|]. split; [|exact H4].
      rewrite H3. unfold happened. rewrite flat_map_app. cbn. apply lookup_ge_None_1 in El. rewrite IHl in El.
      rewrite decide_False by lia. rewrite app_nil_r; reflexivity.
Qed.
End relay.

(** ** UDP redirects *)
Definition uev (x : lk) : list uevent :=
  match x with
  | LkText t => [EWrite (t, None)]
  | LkEvent (KResolved ip) => [EResolved ip]
  | LkEvent (KStart t) => [EConnect (Some t)]
  | LkEvent KStop => [EDisconnect]
  | LkEvent KTurn => [ETurn]
  | LkEvent _ => []
  end.
Lemma lk_udp N h u : lk_run N h (LUdp u) = LUdp (urun N redirect_cfg (flat_map uev h) u).
Proof.
  revert u. induction h as [|x h IH]; intros u; [reflexivity|]. cbn [flat_map]. unfold urun. rewrite fold_left_app.
  change (fold_left _ (flat_map uev h)) with (urun N redirect_cfg (flat_map uev h)). rewrite <- IH. cbn [lk_run fold_left].
  unfold lk_run. f_equal. destruct x as [t|[ip|t| | | |now|now]]; reflexivity.
Qed.
Lemma uev_writes h : writes (flat_map uev h) = map (fun t => (t, None)) (lk_texts h).
Proof.
  induction h as [|x h IH]; [reflexivity|]. cbn [flat_map]. unfold writes in *. rewrite flat_map_app, IH.
  destruct x as [t|[ip|t| | | |now|now]]; reflexivity.
Qed.
Lemma uev_resolutions h : resolutions (flat_map uev h) = flat_map (fun e => match e with KResolved ip => [ip] | _ => [] end) (lk_events h).
Proof.
  induction h as [|x h IH]; [reflexivity|]. cbn [flat_map]. unfold resolutions in *. rewrite flat_map_app, IH.
  destruct x as [t|[ip|t| | | |now|now]]; reflexivity.
Qed.
(** nothing is held back or lost while the redirect is up *)
Lemma a_up limit evs : forall a, a_resolved a = true -> a_connected a = true -> a_waiting a = [] -> ~ In EDisconnect evs ->
  a_gone (a_run limit evs a) = a_gone a ++ writes evs /\ a_waiting (a_run limit evs a) = [].
Proof.
  induction evs as [|e evs IH]; intros a H1 H2 H3 Hn; [cbn; rewrite app_nil_r; auto|].
  change (a_run limit (e :: evs) a) with (a_run limit evs (a_step limit a e)).
  assert (Hs : a_resolved (a_step limit a e) = true /\ a_connected (a_step limit a e) = true /\ a_waiting (a_step limit a e) = [] /\
        a_gone (a_step limit a e) = a_gone a ++ writes [e]).
  { destruct a as [r c g w]. cbn in H1, H2, H3. subst. destruct e as [it|ip|[t|]| |]; cbn; rewrite ?app_nil_r; auto. exfalso. apply Hn. left. reflexivity. }
  destruct Hs as (S1 & S2 & S3 & S4). destruct (IH (a_step limit a e) S1 S2 S3) as [G1 G2]; [intros Hx; apply Hn; right; exact Hx|].
  rewrite G1, S4, <- app_assoc. split; [|exact G2]. f_equal. unfold writes. cbn [flat_map]. rewrite app_nil_r. reflexivity.
Qed.
Lemma a_resolves limit evs : forall a, a_resolved a = true \/ resolutions evs <> [] -> a_resolved (a_run limit evs a) = true.
Proof.
  induction evs as [|e evs IH]; intros a H; [destruct H as [H|H]; [exact H|destruct H; reflexivity]|].
  change (a_run limit (e :: evs) a) with (a_run limit evs (a_step limit a e)). apply IH.
  destruct e as [it|ip|[t|]| |]; cbn [a_step resolutions flat_map app] in *; unfold release; cbn [a_resolved a_connected].
  - destruct H as [H|H]; [left|right; exact H]. destruct (a_resolved a && a_connected a); [reflexivity|]. destruct (length (a_waiting a) <? limit)%nat; exact H.
  - left. destruct (true && _); reflexivity.
  - destruct H as [H|H]; [left|right; exact H]. destruct (_ && _); exact H.
  - destruct H as [H|H]; [left|right; exact H]. destruct (_ && _); exact H.
  - exact H.
  - exact H.
Qed.
Lemma a_connects limit evs : forall a, a_connected a = true -> ~ In EDisconnect evs -> a_connected (a_run limit evs a) = true.
Proof.
  induction evs as [|e evs IH]; intros a H Hn; [exact H|].
  change (a_run limit (e :: evs) a) with (a_run limit evs (a_step limit a e)). apply IH; [|intros Hx; apply Hn; right; exact Hx].
  destruct e as [it|ip|[t|]| |]; cbn [a_step]; unfold release; cbn [a_resolved a_connected].
  - destruct (a_resolved a && a_connected a); [reflexivity|]. destruct (length (a_waiting a) <? limit)%nat; exact H.
  - destruct (true && a_connected a); exact H.
  - destruct (_ && _); reflexivity.
  - destruct (_ && _); exact H.
  - exfalso. apply Hn. left. reflexivity.
  - exact H.
Qed.
Lemma a_started limit evs a : (exists x t y, evs = x ++ EConnect (Some t) :: y /\ ~ In EDisconnect y) -> a_connected (a_run limit evs a) = true.
Proof.
  intros (x & t & y & -> & Hn). unfold a_run. rewrite fold_left_app. cbn [fold_left].
  change (fold_left (a_step limit) y) with (a_run limit y). apply a_connects; [|exact Hn].
  cbn [a_step]. unfold release. cbn [a_resolved a_connected]. destruct (_ && _); reflexivity.
Qed.
(** the redirect was started and has not been stopped since *)
Definition is_started (ks : list kevent) : Prop := exists a t b, ks = a ++ KStart t :: b /\ ~ In KStop b.
Lemma uev_stop h : In EDisconnect (flat_map uev h) <-> In KStop (lk_events h).
Proof.
  induction h as [|x h IH]; [reflexivity|]. change (lk_events (x :: h)) with (match x with LkEvent e => [e] | _ => [] end ++ lk_events h).
  cbn [flat_map]. rewrite !in_app_iff, IH. destruct x as [t|[ip|t| | | |now|now]]; cbn [uev In]; intuition congruence.
Qed.
Lemma uev_started h : is_started (lk_events h) -> exists x t y, flat_map uev h = x ++ EConnect (Some t) :: y /\ ~ In EDisconnect y.
Proof.
  intros (a & t & b & He & Hn). revert a He. induction h as [|x h IH]; intros a He; [destruct a; discriminate|].
  destruct x as [t0|e]; [|destruct a as [|e' a]].
  - destruct (IH a He) as (x & t' & y & E & Hy). exists (EWrite (t0, None) :: x), t', y. cbn [flat_map uev app]. rewrite E. auto.
  - injection He as -> He. exists [], t, (flat_map uev h). split; [reflexivity|]. change (lk_events h = b) in He. rewrite uev_stop, He. exact Hn.
  - injection He as -> He. destruct (IH a He) as (x & t' & y & E & Hy). exists (uev (LkEvent e') ++ x), t', y. cbn [flat_map]. rewrite E, app_assoc. auto.
Qed.
Lemma map_pair_fst (ts : list str) : map fst (map (fun t => (t, None : option nat)) ts) = ts.
Proof. rewrite map_map. apply map_id. Qed.
Lemma sublist_map {A B} (f : A -> B) l k : sublist l k -> sublist (map f l) (map f k).
Proof. induction 1; cbn; constructor; assumption. Qed.

Section udp.
Context `{NN : Num} {S : Type} (G : engine).
Context (inner : str -> str -> str -> list str -> M S unit) (fl : gen S).
Context (cfg : mon) (max : nat) (closes : bool) (refuses : nat -> dp -> option exn).
Context (N : nat -> unet) (is_ip : str -> bool).
Context (config : str) (ls : list lspec) (rs : list (rule G)) (rws : list rule_text).
Context (Hb : build_rules G true config [] = (ls, Ok rs)) (Hr : rules_of config rws).
Notation frun_ := (frun G inner fl rs cfg max closes refuses N).
Notation start addrs p := (d_new addrs (map (new_link is_ip) ls) p).
Context (i : nat) (h : str) (port : Z) (Hi : ls !! i = Some (false, h, port)).

Lemma link_start addrs (p : S) : d_links (start addrs p) !! i = Some (LUdp (fst (uc_create redirect_cfg is_ip h uc_init))).
Proof using Hi. unfold d_links. cbn [d_new d_srv srv_new v_proc r_links]. refine (eq_trans (list_lookup_fmap (new_link is_ip) ls i) (eq_trans (f_equal (fmap (new_link is_ip)) Hi) eq_refl)). Qed.
Lemma link_lt : (i < length ls)%nat. Proof using Hi. eapply lookup_lt_Some, Hi. Qed.
Definition ips (ks : list kevent) : list str := flat_map (fun e => match e with KResolved ip => [ip] | _ => [] end) ks.

Theorem udp_forwarded addrs p es : let d := frun_ (start addrs p) es in
  exists u tss, d_links d !! i = Some (LUdp u) /\ Forall2 (forwards G rws i) (d_order d) tss /\
    sublist (map fst (all_items u)) (concat tss) /\ ((length (concat tss) <= 1000)%nat -> map fst (all_items u) = concat tss) /\
    (length (u_queue u) <= 1000)%nat /\
    Forall (fun x => In (snd (fst x)) (ClientFacts.known is_ip h ++ ips (happened i es))) (u_sent u).
Proof using Hb Hr Hi.
  intros d. destruct (relay_from G inner fl cfg max closes refuses N config ls rs rws Hb Hr (start addrs p) es) as (_ & ms & Ho & H).
  { unfold d_links. cbn [d_new d_srv srv_new v_proc r_links]. apply map_length. }
  fold d in Ho, H. cbn [d_new d_order app] in Ho. destruct (H i link_lt) as (hs & tss & H1 & H2 & H3 & H4).
  rewrite link_start in H4. cbn [fmap option_fmap option_map] in H4. rewrite lk_udp, run_calm in H4.
  eexists. exists tss. split; [exact H4|]. rewrite Ho. split; [exact H1|].
  destruct (items_in_order (N i) calm_cfg calm_quiet is_ip h (flat_map uev hs)) as [I1 I2]. cbv zeta in I1, I2.
  rewrite uev_writes, H2 in I1, I2. cbn [uc_limit calm_cfg] in I2. rewrite map_length in I2.
  split; [apply (sublist_map fst) in I1; rewrite map_pair_fst in I1; exact I1|].
  split; [intros Hl; rewrite (I2 Hl); apply map_pair_fst|]. split; [apply (bounded (N i) calm_cfg calm_quiet)|].
  apply Forall_forall. intros [[t h'] it] Hx. apply elem_of_list_In in Hx.
  apply (addressed (N i) calm_cfg calm_quiet) in Hx as [Hx _]. rewrite uev_resolutions, H3 in Hx. exact Hx.
Qed.
(** up before the first line, and never stopped *)
Theorem udp_up addrs p es es' :
  d_order (frun_ (start addrs p) es) = [] -> is_ip h = true \/ ips (happened i es) <> [] -> is_started (happened i es) ->
  ~ In KStop (happened i es') ->
  let d := frun_ (start addrs p) (es ++ es') in
  exists u tss, d_links d !! i = Some (LUdp u) /\ Forall2 (forwards G rws i) (d_order d) tss /\
    u_queue u = [] /\ map fst (map snd (u_sent u) ++ map snd (u_sched u)) = concat tss.
Proof using Hb Hr Hi.
  intros Hno Hres Hst Hns d.
  destruct (relay_from G inner fl cfg max closes refuses N config ls rs rws Hb Hr (start addrs p) es) as (Hl & ms & Ho & H).
  { unfold d_links. cbn [d_new d_srv srv_new v_proc r_links]. apply map_length. }
  rewrite Hno in Ho. cbn [d_new d_order app] in Ho. subst ms. destruct (H i link_lt) as (hs & tss & H1 & H2 & H3 & H4).
  inversion H1; subst tss. cbn in H2. rewrite link_start in H4. cbn [fmap option_fmap option_map] in H4.
  destruct (relay_from G inner fl cfg max closes refuses N config ls rs rws Hb Hr _ es' Hl) as (_ & ms & Ho' & H').
  assert (Hd : frun_ (frun_ (start addrs p) es) es' = d) by (unfold d, frun; rewrite fold_left_app; reflexivity).
  rewrite Hd in Ho', H'. rewrite Hno in Ho'. cbn [app] in Ho'. destruct (H' i link_lt) as (hs' & tss & K1 & K2 & K3 & K4).
  rewrite H4 in K4. cbn [fmap option_fmap option_map] in K4. rewrite <- lk_app, lk_udp, run_calm in K4.
  eexists. exists tss. split; [exact K4|]. rewrite Ho'. split; [exact K1|].
  destruct (fifo (N i) calm_cfg calm_quiet is_ip h (flat_map uev (hs ++ hs'))) as [F1 F2]. rewrite F1, F2. cbn [uc_limit calm_cfg].
  rewrite flat_map_app. unfold a_run. rewrite fold_left_app.
  change (fold_left (a_step 1000) (flat_map uev hs')) with (a_run 1000 (flat_map uev hs')).
  change (fold_left (a_step 1000) (flat_map uev hs) (a_init (is_ip h))) with (a_run 1000 (flat_map uev hs) (a_init (is_ip h))).
  assert (Ires : a_resolved (a_run 1000 (flat_map uev hs) (a_init (is_ip h))) = true).
  { apply a_resolves. rewrite uev_resolutions, H3. exact Hres. }
  assert (Icon : a_connected (a_run 1000 (flat_map uev hs) (a_init (is_ip h))) = true).
  { apply a_started, uev_started. rewrite H3. exact Hst. }
  assert (Iinv : a_inv (a_run 1000 (flat_map uev hs) (a_init (is_ip h)))).
  { apply a_inv_run. intros Hx. cbn in Hx. rewrite andb_false_r in Hx. discriminate. }
  assert (Iwait : a_waiting (a_run 1000 (flat_map uev hs) (a_init (is_ip h))) = []) by (apply Iinv; rewrite Ires, Icon; reflexivity).
  assert (Igone : a_gone (a_run 1000 (flat_map uev hs) (a_init (is_ip h))) = []).
  { destruct (a_sublist 1000 (flat_map uev hs) (a_init (is_ip h))) as (ws & W1 & W2).
    - intros Hx. cbn in Hx. rewrite andb_false_r in Hx. discriminate.
    - rewrite uev_writes, H2 in W1. apply sublist_nil_r in W1. subst ws. rewrite Iwait in W2. cbn in W2. rewrite !app_nil_r in W2. exact W2. }
  destruct (a_up 1000 (flat_map uev hs') _ Ires Icon Iwait) as [U1 U2]; [rewrite uev_stop, K3; exact Hns|].
  split; [exact U2|]. rewrite U1, Igone, uev_writes, K2. apply map_pair_fst.
Qed.
End udp.
