(** A daemon that redirects over TCP (Relay.v): what each connection carries. *)
From Verif Require Import Base StrFacts Num Env Metrics Gen Processor LineSpec ProcSpec Client Router RouterSpec RouterFacts RouterProps
  Server FrameFacts Daemon Relay RelaySpec RelayFacts.

(** what the factory's connections were given, the earlier ones first *)
Definition carried (f : tfactory) : list str :=
  flat_map tp_wire (tf_old f ++ match tf_proto f with Some p => [p] | None => [] end).
Definition open_link (f : tfactory) : Prop := exists p, tf_proto f = Some p /\ tp_paused p = false.
Definition shut_link (f : tfactory) : Prop := match tf_proto f with Some p => tp_paused p = true | None => True end.
Definition sendable (t : str) : Prop := t <> [] /\ ~ exists u, t = u ++ [c_cr].

Section texts.
Context (G : engine).
Lemma stops_fields fs rws : forall j ms sent, stops G j rws ms sent -> Forall (fun m => snd m = fs) ms ->
  Forall (fun it => exists k, snd it = k ++ B ":" ++ barred fs) sent.
Proof.
  induction rws as [|r rws IH]; intros j ms sent H Hf; inversion H as [? ? ? bf m af mid ts Ha Hn E1 E2|? ? ? ? mid ts s2 Ha Hr]; subst.
  - apply Forall_app in Hf as [Hf _]. apply (applies_all_fields G fs) in Ha as [_ Ht]; [|exact Hf].
    apply Forall_forall. intros it Hit. apply elem_of_list_fmap in Hit as (t & -> & Hin). rewrite Forall_forall in Ht. apply Ht, Hin.
  - apply (applies_all_fields G fs) in Ha as [Hm Ht]; [|exact Hf]. apply Forall_app. split; [|eapply IH; eassumption].
    apply Forall_forall. intros it Hit. apply elem_of_list_fmap in Hit as (t & -> & Hin). rewrite Forall_forall in Ht. apply Ht, Hin.
Qed.
Lemma line_sends_sendable rws m sent : line_sends G rws m sent -> Forall (fun it => sendable (snd it)) sent.
Proof.
  intros H. assert (Hx : sent = [] \/ exists t k fs, typed_line m t k fs /\ Forall (fun it => exists k', snd it = k' ++ B ":" ++ barred fs) sent).
  { destruct H as [Hn|t k fs out sent Ht Hro|t k fs sent Ht Hst]; [auto|right; exists t, k, fs; split; [exact Ht|]..].
    - eapply (routes_fields G fs) in Hro as [_ H]; [exact H|repeat constructor].
    - eapply (stops_fields fs) in Hst; [exact Hst|repeat constructor]. }
  destruct Hx as [->|(t & k & fs & (raw & Hl & _ & _) & Hx)]; [constructor|].
  eapply Forall_impl; [exact Hx|]. cbn. intros [i x] (k' & ->). cbn [snd]. split; [destruct k'; discriminate|].
  intros Hc. eapply line_tail in Hc; [|exact Hl]. apply Hc. vm_compute. tauto.
Qed.
Lemma forwards_sendable rws i m ts : forwards G rws i m ts -> Forall sendable ts.
Proof.
  intros (sent & Hs & ->). apply line_sends_sendable in Hs. rewrite Forall_forall in Hs. apply Forall_forall. intros t Ht.
  apply elem_of_list_omap in Ht as (it & Hit & E). destruct (decide _); [|discriminate]. injection E as <-. apply Hs, Hit.
Qed.
Lemma all_sendable rws i ms tss : Forall2 (forwards G rws i) ms tss -> Forall sendable (concat tss).
Proof. intros H. induction H as [|m ts ms tss Hm _ IH]; [constructor|]. cbn. apply Forall_app. split; [eapply forwards_sendable, Hm|exact IH]. Qed.
End texts.

(** ** One redirect *)
Lemma body_sendable t : sendable t -> ~ (exists u, t = u ++ CRLF) -> body t = t.
Proof. intros [_ H] Hc. apply body_plain; assumption. Qed.
Definition on_wire (t : str) : str := body t ++ CRLF.
(** [on_wire t] is [t] when it ends in CRLF, and [t] with CRLF otherwise *)
Lemma on_wire_spec t : sendable t -> ((exists u, t = u ++ CRLF) -> on_wire t = t) /\ (~ (exists u, t = u ++ CRLF) -> on_wire t = t ++ CRLF).
Proof.
  intros Hs. split.
  - intros (u & ->). unfold on_wire. rewrite body_crlf. reflexivity.
  - intros Hn. unfold on_wire. rewrite body_sendable by assumption. reflexivity.
Qed.
Lemma write_open f t : open_link f -> sendable t -> exists f', fst (link_write t (LTcp f)) = LTcp f' /\ open_link f' /\ carried f' = carried f ++ [on_wire t].
Proof.
  intros (p & Hp & Hu) [Ht _]. cbn [link_write]. unfold tf_write, on_proto. rewrite Hp, tp_write_frame by assumption. eexists. split; [reflexivity|].
  split; [eexists; split; reflexivity|]. unfold carried. cbn [tf_old tf_proto]. rewrite Hp, !flat_map_app. cbn. rewrite !app_nil_r, app_assoc. reflexivity.
Qed.
Lemma write_shut f t : shut_link f -> exists f', fst (link_write t (LTcp f)) = LTcp f' /\ shut_link f' /\ carried f' = carried f.
Proof.
  unfold shut_link, carried. intros Hs. cbn [link_write]. unfold tf_write, on_proto. destruct (tf_proto f) as [p|] eqn:Hp.
  - unfold tp_write. rewrite Hs. eexists. split; [reflexivity|]. cbn [tf_old tf_proto]. split; [reflexivity|]. rewrite !flat_map_app. reflexivity.
  - exists f. split; [reflexivity|]. rewrite Hp. auto.
Qed.
Lemma build_open f : open_link (tf_build f) /\ carried (tf_build f) = carried f.
Proof.
  split; [eexists; split; reflexivity|]. unfold carried, tf_build. cbn [tf_old tf_proto]. destruct (tf_proto f); rewrite !flat_map_app; cbn; rewrite ?app_nil_r; reflexivity.
Qed.
Lemma event_carried N e f : exists f', link_step N e (LTcp f) = LTcp f' /\ carried f' = carried f /\
  (e <> KBuild -> shut_link f -> shut_link f') /\ ((forall now, e <> KPause now) -> open_link f -> open_link f') /\
  (e = KBuild -> open_link f').
Proof.
  unfold shut_link, open_link, carried. destruct e as [ip|t| | | |now|now]; cbn [link_step].
  1-4: exists f; repeat (split; [auto|]); discriminate.
  - exists (tf_build f). split; [reflexivity|]. split; [apply build_open|]. split; [congruence|]. split; intros; apply build_open.
  - unfold on_proto. destruct (tf_proto f) as [p|] eqn:Hp; (eexists; split; [reflexivity|]); cbn [fst tf_proto tf_old].
    + split; [rewrite !flat_map_app; reflexivity|]. split; [reflexivity|]. split; [intros H; exfalso; eapply H; reflexivity|discriminate].
    + rewrite Hp. split; [reflexivity|]. split; [auto|]. split; [intros _ (? & ? & _); discriminate|discriminate].
  - unfold on_proto. destruct (tf_proto f) as [p|] eqn:Hp; (eexists; split; [reflexivity|]).
    + assert (Hr : tp_resume now p = (p, Exn TypeError)).
      { unfold tp_resume. cbn. destruct (tp_last p); reflexivity. }
      rewrite Hr. cbn [fst tf_proto tf_old]. split; [rewrite !flat_map_app; reflexivity|]. split; [auto|]. split; [|discriminate].
      intros _ (q & E & Hq). injection E as ->. eauto.
    + cbn [fst]. rewrite Hp. split; [reflexivity|]. split; [auto|]. split; [auto|discriminate].
Qed.
(** ** Histories *)
Lemma open_or_shut f : open_link f \/ shut_link f.
Proof. unfold open_link, shut_link. destruct (tf_proto f) as [p|]; [|auto]. destruct (tp_paused p) eqn:E; [auto|left; eauto]. Qed.
Lemma lk_carried N h : forall f, Forall sendable (lk_texts h) ->
  exists f' kept, lk_run N h (LTcp f) = LTcp f' /\ sublist kept (lk_texts h) /\ carried f' = carried f ++ map on_wire kept /\
    (open_link f -> (forall now, ~ In (KPause now) (lk_events h)) -> open_link f' /\ kept = lk_texts h) /\
    (shut_link f -> ~ In KBuild (lk_events h) -> shut_link f' /\ kept = []).
Proof.
  induction h as [|x h IH]; intros f Ht.
  - exists f, []. split; [reflexivity|]. split; [constructor|]. split; [cbn; rewrite app_nil_r; reflexivity|]. auto.
  - cbn [lk_run fold_left]. destruct x as [t|e]; cbn [lk_step].
    + cbn in Ht. inversion Ht as [|? ? Ht1 Ht2]; subst. destruct (open_or_shut f) as [Ho|Hs].
      * destruct (write_open f t Ho Ht1) as (f1 & E & O1 & C1). rewrite E. destruct (IH f1 Ht2) as (f2 & kept & A & B & C & D & F).
        exists f2, (t :: kept). split; [exact A|]. split; [cbn; constructor; exact B|]. split; [rewrite C, C1; cbn; rewrite <- app_assoc; reflexivity|]. split.
        -- intros _ Hn. destruct (D O1 Hn) as [D1 D2]. split; [exact D1|]. cbn. f_equal. exact D2.
        -- intros Hs. exfalso. destruct Ho as (p & Hp & Hu). unfold shut_link in Hs. rewrite Hp in Hs. congruence.
      * destruct (write_shut f t Hs) as (f1 & E & O1 & C1). rewrite E. destruct (IH f1 Ht2) as (f2 & kept & A & B & C & D & F).
        exists f2, kept. split; [exact A|]. split; [cbn; constructor; exact B|]. split; [rewrite C, C1; reflexivity|]. split.
        -- intros (p & Hp & Hu). exfalso. unfold shut_link in Hs. rewrite Hp in Hs. congruence.
        -- intros _ Hn. apply F; assumption.
    + destruct (event_carried N e f) as (f1 & E & C1 & S1 & O1 & B1). rewrite E. destruct (IH f1 Ht) as (f2 & kept & A & B & C & D & F).
      exists f2, kept. split; [exact A|]. split; [exact B|]. split; [rewrite C, C1; reflexivity|]. split.
      * intros Ho Hn. apply D; [apply O1; [|exact Ho]; intros now ->; apply (Hn now); left; reflexivity|]. intros now Hin. apply (Hn now). right. exact Hin.
      * intros Hs Hn. apply F; [apply S1; [|exact Hs]; intros ->; apply Hn; left; reflexivity|]. intros Hin. apply Hn. right. exact Hin.
Qed.
(** connected, and not paused since the last connection *)
Definition is_open (ks : list kevent) : Prop := exists a b, ks = a ++ KBuild :: b /\ forall now, ~ In (KPause now) b.
(** never connected, or paused and not connected since *)
Definition is_shut (ks : list kevent) : Prop := ~ In KBuild ks \/ exists a now b, ks = a ++ KPause now :: b /\ ~ In KBuild b.
Lemma lk_events_split h a b : lk_events h = a ++ b -> exists h1 h2, h = h1 ++ h2 /\ lk_events h1 = a /\ lk_events h2 = b.
Proof.
  revert a. induction h as [|[t|e] h IH]; intros a E; cbn in E.
  - symmetry in E. apply app_eq_nil in E as [-> ->]. exists [], []. auto.
  - destruct (IH a E) as (h1 & h2 & -> & H1 & H2). exists (LkText t :: h1), h2. auto.
  - destruct a as [|e' a]; cbn in E.
    + exists [], (LkEvent e :: h). split; [reflexivity|]. split; [reflexivity|]. exact E.
    + injection E as <- E. destruct (IH a E) as (h1 & h2 & -> & <- & H2). exists (LkEvent e :: h1), h2. auto.
Qed.
Lemma lk_first h e b : lk_events h = e :: b -> exists ts h2, h = map LkText ts ++ LkEvent e :: h2 /\ lk_events h2 = b.
Proof.
  induction h as [|[t|e'] h IH]; intros E; cbn in E; [discriminate|..].
  - destruct (IH E) as (ts & h2 & -> & H2). exists (t :: ts), h2. auto.
  - injection E as -> E. exists [], h. auto.
Qed.
Lemma lk_tcp N h : forall f, exists f', lk_run N h (LTcp f) = LTcp f'.
Proof.
  induction h as [|x h IH]; intros f; [eexists; reflexivity|]. cbn [lk_run fold_left]. destruct x as [t|e]; cbn [lk_step].
  - cbn [link_write]. destruct (tf_write t f) as [f1 r]. cbn [fst]. apply IH.
  - destruct (event_carried N e f) as (f1 & E & _). rewrite E. apply IH.
Qed.
Lemma lk_is_open N h f f' : Forall sendable (lk_texts h) -> is_open (lk_events h) -> lk_run N h (LTcp f) = LTcp f' -> open_link f'.
Proof.
  intros Ht (a & b & E & Hn) Hf. apply lk_events_split in E as (h1 & h2 & -> & _ & E2). apply lk_first in E2 as (ts & h3 & -> & E3).
  rewrite lk_app, lk_app in Hf. destruct (lk_tcp N h1 f) as (f1 & E1). rewrite E1 in Hf. destruct (lk_tcp N (map LkText ts) f1) as (f2 & E2). rewrite E2 in Hf.
  cbn [lk_run fold_left lk_step] in Hf. destruct (event_carried N KBuild f2) as (f3 & E4 & _ & _ & _ & Ho). rewrite E4 in Hf. specialize (Ho eq_refl).
  rewrite !lk_texts_app in Ht. apply Forall_app in Ht as [_ Ht]. apply Forall_app in Ht as [_ Ht]. cbn in Ht.
  destruct (lk_carried N h3 f3 Ht) as (f4 & kept & A & _ & _ & D & _). unfold lk_run in A. rewrite A in Hf. injection Hf as <-. apply D; [exact Ho|]. rewrite E3. exact Hn.
Qed.
Lemma lk_is_shut N h f f' : Forall sendable (lk_texts h) -> is_shut (lk_events h) -> tf_proto f = None -> lk_run N h (LTcp f) = LTcp f' -> shut_link f'.
Proof.
  intros Ht [Hn|(a & now & b & E & Hn)] H0 Hf.
  - destruct (lk_carried N h f Ht) as (f4 & kept & A & _ & _ & _ & D). rewrite A in Hf. injection Hf as <-. apply D; [|exact Hn]. unfold shut_link. rewrite H0. exact I.
  - apply lk_events_split in E as (h1 & h2 & -> & _ & E2). apply lk_first in E2 as (ts & h3 & -> & E3).
    rewrite lk_app, lk_app in Hf. destruct (lk_tcp N h1 f) as (f1 & E1). rewrite E1 in Hf. destruct (lk_tcp N (map LkText ts) f1) as (f2 & E2). rewrite E2 in Hf.
    cbn [lk_run fold_left lk_step] in Hf. destruct (event_carried N (KPause now) f2) as (f3 & E4 & _ & Hs & _).
    assert (Hs3 : shut_link f3).
    { destruct (open_or_shut f2) as [Ho|Ho]; [|apply Hs; [discriminate|exact Ho]]. cbn [link_step] in E4. unfold on_proto in E4.
      destruct Ho as (p & Hp & _). rewrite Hp in E4. cbn in E4. injection E4 as <-. reflexivity. }
    rewrite E4 in Hf. rewrite !lk_texts_app in Ht. apply Forall_app in Ht as [_ Ht]. apply Forall_app in Ht as [_ Ht]. cbn in Ht.
    destruct (lk_carried N h3 f3 Ht) as (f4 & kept & A & _ & _ & _ & D). unfold lk_run in A. rewrite A in Hf. injection Hf as <-. apply D; [exact Hs3|]. rewrite E3. exact Hn.
Qed.

(** ** The daemon *)
Section tcp.
Context `{NN : Num} {S : Type} (G : engine).
Context (inner : str -> str -> str -> list str -> M S unit) (fl : gen S).
Context (cfg : mon) (max : nat) (closes : bool) (refuses : nat -> dp -> option exn).
Context (N : nat -> unet) (is_ip : str -> bool).
Context (config : str) (ls : list lspec) (rs : list (rule G)) (rws : list rule_text).
Context (Hb : build_rules G true config [] = (ls, Ok rs)) (Hr : rules_of config rws).
Notation frun_ := (frun G inner fl rs cfg max closes refuses N).
Notation start addrs p := (d_new addrs (map (new_link is_ip) ls) p).
Context (i : nat) (h : str) (port : Z) (Hi : ls !! i = Some (true, h, port)).
Lemma tcp_lt : (i < length ls)%nat. Proof using Hi. eapply lookup_lt_Some, Hi. Qed.
Lemma tcp_start addrs (p : S) : d_links (start addrs p) !! i = Some (LTcp tf_new).
Proof using Hi. refine (eq_trans (list_lookup_fmap _ _ _) (eq_trans (f_equal (fmap _) Hi) eq_refl)). Qed.

(** from any moment [es] on: the lines handled meanwhile, and what the connections carry *)
Theorem tcp_forwarded addrs p es es' :
  let d := frun_ (start addrs p) es in let d' := frun_ (start addrs p) (es ++ es') in
  exists f f' ms tss kept, d_links d !! i = Some (LTcp f) /\ d_links d' !! i = Some (LTcp f') /\
    d_order d' = d_order d ++ ms /\ Forall2 (forwards G rws i) ms tss /\ Forall sendable (concat tss) /\
    sublist kept (concat tss) /\ carried f' = carried f ++ map on_wire kept /\
    (is_open (happened i es) -> (forall now, ~ In (KPause now) (happened i es')) -> kept = concat tss) /\
    (is_shut (happened i es) -> ~ In KBuild (happened i es') -> kept = []).
Proof using Hb Hr Hi.
  intros d d'.
  destruct (relay_from G inner fl cfg max closes refuses N config ls rs rws Hb Hr (start addrs p) es) as (Hl & ms0 & Ho & H).
  { unfold d_links. cbn [d_new d_srv srv_new v_proc r_links]. apply map_length. }
  fold d in Hl, Ho, H. destruct (H i tcp_lt) as (hs & tss0 & H1 & H2 & H3 & H4).
  rewrite tcp_start in H4. cbn [fmap option_fmap option_map] in H4.
  destruct (relay_from G inner fl cfg max closes refuses N config ls rs rws Hb Hr d es' Hl) as (_ & ms & Ho' & H').
  assert (Hd : frun_ d es' = d') by (unfold d', d, frun; rewrite fold_left_app; reflexivity).
  rewrite Hd in Ho', H'. destruct (H' i tcp_lt) as (hs' & tss & K1 & K2 & K3 & K4).
  destruct (lk_tcp (N i) hs tf_new) as (f & Ef). rewrite Ef in H4. rewrite H4 in K4. cbn [fmap option_fmap option_map] in K4.
  pose proof (all_sendable G rws i _ _ H1) as T1. pose proof (all_sendable G rws i _ _ K1) as T2.
  destruct (lk_carried (N i) hs' f) as (f' & kept & A & B & C & D & F); [rewrite K2; exact T2|]. rewrite A in K4.
  exists f, f', ms, tss, kept. split; [exact H4|]. split; [exact K4|]. split; [exact Ho'|]. split; [exact K1|]. split; [exact T2|].
  rewrite K2 in B, D. split; [exact B|]. split; [exact C|]. rewrite K3 in D, F. rewrite <- H3. split.
  - intros Hopen Hn. apply D; [|exact Hn]. eapply lk_is_open; [rewrite H2; exact T1|exact Hopen|exact Ef].
  - intros Hshut Hn. apply F; [|exact Hn]. apply (lk_is_shut (N i) hs tf_new f); [rewrite H2; exact T1|exact Hshut|reflexivity|exact Ef].
Qed.
End tcp.
