(** Lines over a stream: what a TCP redirect writes and what a line receiver gets. *)
From Verif Require Import Base StrFacts LineSpec LineFacts Client Router RouterSpec RouterFacts Server.

Notation cut := (split_on2 c_cr c_nl).
Definition crlf_in (s : str) : Prop := occurs2 c_cr c_nl s.
Lemma cr_nl : c_cr <> c_nl. Proof. discriminate. Qed.
Lemma CRLF_eq : CRLF = [c_cr; c_nl]. Proof. reflexivity. Qed.

Lemma cut_none s : ~ crlf_in s -> cut s = [s].
Proof.
  intros H. destruct (split2_spec c_cr c_nl cr_nl (length s) s ltac:(lia)) as [[_ E]|(u & v & E & _ & _)]; [exact E|].
  exfalso. apply H. exists u, v. exact E.
Qed.
Lemma cut_first u v : ~ crlf_in u -> cut (u ++ CRLF ++ v) = u :: cut v.
Proof.
  intros H. destruct (split2_spec c_cr c_nl cr_nl (length (u ++ CRLF ++ v)) (u ++ CRLF ++ v) ltac:(lia))
    as [[E _]|(u' & v' & E & H' & E')].
  - exfalso. apply E. exists u, v. reflexivity.
  - destruct (split2_unique c_cr c_nl cr_nl u v u' v' E H H') as [-> ->]. exact E'.
Qed.
Lemma cut_nonempty s : cut s <> [].
Proof. eapply split2_nonempty. reflexivity. Qed.
Lemma cut_cases s : (~ crlf_in s /\ cut s = [s]) \/
  exists u v, s = u ++ CRLF ++ v /\ ~ crlf_in u /\ cut s = u :: cut v /\ (length v < length s)%nat.
Proof.
  destruct (split2_spec c_cr c_nl cr_nl (length s) s ltac:(lia)) as [?|(u & v & E & H & H')]; [auto|].
  right. exists u, v. repeat split; auto. rewrite E, !app_length. cbn. lia.
Qed.
(** the separator never overlaps what surrounds it *)
Lemma cut_sep : forall n a b, (length a <= n)%nat -> cut (a ++ CRLF ++ b) = cut a ++ cut b.
Proof.
  induction n as [|n IH]; intros a b Hn.
  - destruct a; [|cbn in Hn; lia]. apply (cut_first [] b). intros (u & v & H). destruct u; discriminate.
  - destruct (cut_cases a) as [[H E]|(u & v & E & H & E' & Hl)].
    + rewrite E. apply cut_first. exact H.
    + rewrite E', E. rewrite <- !app_assoc. rewrite cut_first by exact H. cbn [app]. f_equal. apply IH. lia.
Qed.
(** arrival in two parts *)
Definition done (s : str) : list str := removelast (cut s).
Definition rest (s : str) : str := List.last (cut s) [].
Lemma cut_done s : cut s = done s ++ [rest s].
Proof. apply app_removelast_last, cut_nonempty. Qed.
Lemma cut_app : forall n a b, (length a <= n)%nat -> cut (a ++ b) = done a ++ cut (rest a ++ b).
Proof.
  induction n as [|n IH]; intros a b Hn.
  - destruct a; [|cbn in Hn; lia]. reflexivity.
  - unfold done, rest. destruct (cut_cases a) as [[H E]|(u & v & E & H & E' & Hl)].
    + rewrite E. reflexivity.
    + rewrite E'. rewrite E at 1. rewrite <- !app_assoc, cut_first by exact H.
      rewrite (IH v b) by lia. unfold done, rest.
      destruct (cut v) as [|x l] eqn:Ev; [exfalso; revert Ev; apply cut_nonempty|]. reflexivity.
Qed.
Lemma rest_none s : ~ crlf_in (rest s).
Proof.
  assert (forall n s, (length s <= n)%nat -> ~ crlf_in (rest s)) as H; [|eapply H; reflexivity]. clear s.
  induction n as [|n IH]; intros s Hn.
  - destruct s; [|cbn in Hn; lia]. intros (u & v & H). destruct u; discriminate.
  - unfold rest. destruct (cut_cases s) as [[H E]|(u & v & E & H & E' & Hl)]; [rewrite E; exact H|].
    rewrite E'. destruct (cut v) as [|x l] eqn:Ev; [exfalso; revert Ev; apply cut_nonempty|].
    change (~ crlf_in (List.last (x :: l) [])). rewrite <- Ev. apply (IH v). lia.
Qed.

(** ** What is written *)
Definition body (t : str) : str :=
  if ends_crlf t then removelast (removelast t)
  else match last t with
       | Some c => if eqc c c_cr then removelast t else t
       | None => t
       end.
Definition ends_in (c : ascii) (t : str) : Prop := exists u, t = u ++ [c].
Lemma ends_crlf_iff t : ends_crlf t = true <-> exists u, t = u ++ CRLF.
Proof.
  unfold ends_crlf. split.
  - destruct (rev t) as [|a [|b r]] eqn:E; try discriminate. intros H. apply andb_true_iff in H as [H1 H2].
    apply eqc_eq in H1, H2. subst. exists (rev r). rewrite <- (rev_involutive t), E. cbn. rewrite <- app_assoc. reflexivity.
  - intros (u & ->). rewrite CRLF_eq, rev_app_distr. cbn. reflexivity.
Qed.
Lemma body_crlf u : body (u ++ CRLF) = u.
Proof.
  unfold body. rewrite (proj2 (ends_crlf_iff _)) by eauto. rewrite CRLF_eq.
  change (u ++ [c_cr; c_nl]) with (u ++ [c_cr] ++ [c_nl]). rewrite app_assoc. rewrite !removelast_last. reflexivity.
Qed.
Lemma body_cr u : body (u ++ [c_cr]) = u.
Proof.
  unfold body. destruct (ends_crlf (u ++ [c_cr])) eqn:E.
  - apply ends_crlf_iff in E as (v & E). rewrite CRLF_eq in E. change (v ++ [c_cr; c_nl]) with (v ++ [c_cr] ++ [c_nl]) in E.
    rewrite app_assoc in E. apply app_inj_tail in E as [_ E]. discriminate.
  - rewrite last_snoc. change (eqc c_cr c_cr) with true. apply removelast_last.
Qed.
Lemma body_plain t : ~ ends_in c_cr t -> ~ (exists u, t = u ++ CRLF) -> body t = t.
Proof.
  intros H1 H2. unfold body. destruct (ends_crlf t) eqn:E; [exfalso; apply H2, ends_crlf_iff, E|].
  destruct (last t) as [c|] eqn:El; [|reflexivity]. destruct (eqc c c_cr) eqn:Ec; [|reflexivity].
  apply eqc_eq in Ec. subst. apply last_Some in El as (u & ->). exfalso. apply H1. exists u. reflexivity.
Qed.
Lemma body_cases t : (exists u, t = u ++ CRLF /\ body t = u) \/ (exists u, t = u ++ [c_cr] /\ body t = u) \/
  (~ ends_in c_cr t /\ ~ (exists u, t = u ++ CRLF) /\ body t = t).
Proof.
  destruct (ends_crlf t) eqn:E.
  - apply ends_crlf_iff in E as (u & ->). left. exists u. split; [reflexivity|apply body_crlf].
  - assert (Hn : ~ exists u, t = u ++ CRLF) by (rewrite <- ends_crlf_iff, E; discriminate).
    right. destruct (last t) as [c|] eqn:El.
    + apply last_Some in El as (u & ->). destruct (decide (c = c_cr)) as [->|Hc].
      * left. exists u. split; [reflexivity|apply body_cr].
      * right. assert (~ ends_in c_cr (u ++ [c])) by (intros (v & Hv); apply app_inj_tail in Hv as [_ Hv]; congruence).
        split; [assumption|]. split; [assumption|]. apply body_plain; assumption.
    + apply last_None in El. subst. right. assert (~ ends_in c_cr []) by (intros (v & Hv); destruct v; discriminate).
      split; [assumption|]. split; [assumption|]. reflexivity.
Qed.
Lemma body_id t : body t = t <-> ~ ends_in c_cr t /\ ~ exists u, t = u ++ CRLF.
Proof.
  split; [|intros [? ?]; apply body_plain; assumption].
  destruct (body_cases t) as [(u & -> & ->)|[(u & -> & ->)|(? & ? & ?)]]; auto; intros H; exfalso;
    apply (f_equal (@length _)) in H; rewrite app_length in H; cbn in H; lia.
Qed.
Lemma tp_write_frame t p : tp_paused p = false -> t <> [] ->
  tp_write t p = (TP false (tp_last p) (tp_dropped p) (tp_wire p ++ [body t ++ CRLF]), Ok tt).
Proof.
  intros Hp Ht. unfold tp_write. rewrite Hp. destruct (body_cases t) as [(u & E & ->)|[(u & E & ->)|(H1 & H2 & ->)]].
  - subst. rewrite (proj2 (ends_crlf_iff _)) by eauto. reflexivity.
  - subst. destruct (ends_crlf (u ++ [c_cr])) eqn:E.
    + apply ends_crlf_iff in E as (v & E). rewrite CRLF_eq in E. change (v ++ [c_cr; c_nl]) with (v ++ [c_cr] ++ [c_nl]) in E.
      rewrite app_assoc in E. apply app_inj_tail in E as [_ E]. discriminate.
    + rewrite last_snoc. change (eqc c_cr c_cr) with true. cbn iota. rewrite <- app_assoc. reflexivity.
  - destruct (ends_crlf t) eqn:E; [exfalso; apply H2, ends_crlf_iff, E|].
    destruct (last t) as [c|] eqn:El; [|apply last_None in El; contradiction].
    destruct (eqc c c_cr) eqn:Ec; [|reflexivity].
    apply eqc_eq in Ec. subst. apply last_Some in El as (u & ->). exfalso. apply H1. exists u. reflexivity.
Qed.

(** the lines in what has been written *)
Definition wire_of (ts : list str) : str := concat (map (fun t => body t ++ CRLF) ts).
Lemma cut_wire ts : cut (wire_of ts) = concat (map (fun t => cut (body t)) ts) ++ [[]].
Proof.
  induction ts as [|t ts IH]; [reflexivity|]. unfold wire_of in *. cbn [map concat]. rewrite <- !app_assoc.
  rewrite (cut_sep (length (body t))) by lia. rewrite IH. reflexivity.
Qed.
Lemma done_wire ts : done (wire_of ts) = concat (map (fun t => cut (body t)) ts).
Proof. unfold done. rewrite cut_wire. apply removelast_last. Qed.
Lemma rest_wire ts : rest (wire_of ts) = [].
Proof. unfold rest. rewrite cut_wire. apply last_last. Qed.
(** exactly the texts arrive iff none contains or completes a CRLF *)
Lemma concat_singletons {A} (f : A -> list A) l : (forall x, f x <> []) ->
  (concat (map f l) = l <-> Forall (fun x => f x = [x]) l).
Proof.
  intros Hf. split.
  - intros H. induction l as [|x l IH]; [constructor|]. cbn in H.
    destruct (f x) as [|y r] eqn:E; [exfalso; eapply Hf, E|]. injection H as -> H.
    assert (Hl : (length l <= length (concat (map f l)))%nat).
    { clear -Hf. induction l as [|a l IH]; [cbn; lia|]. cbn. rewrite app_length. specialize (Hf a). destruct (f a); [congruence|cbn; lia]. }
    assert (r = []) as ->.
    { apply (f_equal (@length _)) in H. rewrite app_length in H. destruct r; [reflexivity|cbn in H; lia]. }
    constructor; [exact E|]. apply IH. exact H.
  - intros H. induction H as [|x l E _ IH]; [reflexivity|]. cbn. rewrite E, IH. reflexivity.
Qed.
Lemma lines_iff ts : done (wire_of ts) = ts <-> Forall (fun t => ~ crlf_in t /\ ~ ends_in c_cr t) ts.
Proof.
  rewrite done_wire, concat_singletons by (intros; apply cut_nonempty).
  split; intros H; (eapply Forall_impl; [exact H|]); intros t; cbn beta.
  - intros Ht. assert (Hb : body t = t).
    { assert (~ crlf_in (body t)) as Hn.
      { intros Hc. destruct (cut_cases (body t)) as [[? _]|(u & v & E & Hu & E' & _)]; [contradiction|].
        rewrite E' in Ht. injection Ht as _ Ht. revert Ht. apply cut_nonempty. }
      rewrite cut_none in Ht by exact Hn. congruence. }
    rewrite Hb in Ht. split; [|apply body_id, Hb].
    intros Hc. destruct (cut_cases t) as [[? _]|(u & v & E & Hu & E' & _)]; [contradiction|].
    rewrite E' in Ht. injection Ht as _ Ht. revert Ht. apply cut_nonempty.
  - intros [H1 H2]. rewrite body_plain; [apply cut_none, H1|exact H2|].
    intros (u & ->). apply H1. exists u, []. rewrite app_nil_r. reflexivity.
Qed.

(** ** Arrival in chunks *)
Lemma prefix_piece u b p l : ~ crlf_in u -> cut (u ++ b) = p :: l -> (length u <= length p + 1)%nat.
Proof.
  intros Hu H. destruct (cut_cases (u ++ b)) as [[_ E]|(q & v & E & Hq & E' & _)].
  - rewrite E in H. injection H as <- _. rewrite app_length. lia.
  - rewrite E' in H. injection H as -> _. destruct (Nat.le_gt_cases (length u) (length p + 1)) as [|Hg]; [assumption|].
    exfalso. apply Hu. exists p, (skipn (length p + 2) u).
    transitivity (firstn (length p + 2) u ++ skipn (length p + 2) u); [symmetry; apply firstn_skipn|].
    rewrite app_assoc. f_equal.
    transitivity (firstn (length p + 2) (u ++ b)).
    { rewrite firstn_app. replace (length p + 2 - length u)%nat with 0%nat by lia. cbn [firstn]. rewrite app_nil_r. reflexivity. }
    rewrite E, app_assoc, firstn_app, app_length. cbn [length CRLF].
    replace (length p + 2 - (length p + 2))%nat with 0%nat by lia. cbn [firstn]. rewrite app_nil_r.
    apply firstn_all2. rewrite app_length. cbn. lia.
Qed.
Lemma cut_short s : Forall (fun p => (length p <= length s)%nat) (cut s).
Proof.
  assert (forall n s, (length s <= n)%nat -> Forall (fun p => (length p <= length s)%nat) (cut s)) as H; [|eapply H; reflexivity].
  clear s. induction n as [|n IH]; intros s Hn.
  - destruct s; [|cbn in Hn; lia]. repeat constructor.
  - destruct (cut_cases s) as [[_ ->]|(u & v & E & _ & -> & Hl)]; [repeat constructor|].
    constructor; [rewrite E, app_length; lia|]. eapply Forall_impl; [apply IH; lia|]. cbn. intros p. lia.
Qed.
Definition short (max : nat) (w : str) : Prop :=
  forall a b, w = a ++ b -> Forall (fun p => (length p <= max)%nat) (cut a).
Lemma wire_short max ts : Forall (fun t => (length (body t) < max)%nat) ts -> (0 < max)%nat -> short max (wire_of ts).
Proof.
  intros H Hm a b Hw.
  assert (Hc : Forall (fun p => (length p < max)%nat) (cut (wire_of ts))).
  { rewrite cut_wire. apply Forall_app. split; [|repeat constructor; exact Hm]. clear Hw.
    induction H as [|t ts Ht _ IH]; [constructor|]. cbn. apply Forall_app. split; [|exact IH].
    eapply Forall_impl; [apply cut_short|]. cbn. intros p. lia. }
  rewrite Hw, (cut_app (length a)) in Hc by lia. apply Forall_app in Hc as [H1 H2].
  rewrite cut_done. apply Forall_app. split; [eapply Forall_impl; [exact H1|]; cbn; intros; lia|].
  constructor; [|constructor]. destruct (cut (rest a ++ b)) as [|p l] eqn:E; [exfalso; revert E; apply cut_nonempty|].
  apply prefix_piece in E; [|apply rest_none]. inversion H2; subst. lia.
Qed.

Section receive.
Context {S : Type} (cfg : mon) (max : nat).
Definition take_lines (addr : str) (ls : list str) (s : @server S) : server :=
  fold_left (fun s l => fst (received cfg addr l s)) ls s.
Lemma line_loop_ok addr ls : forall r (s : @server S), Forall (fun p => (length p <= max)%nat) (ls ++ [r]) ->
  line_loop cfg max false addr (ls ++ [r]) s = (take_lines addr ls s, r, true).
Proof.
  induction ls as [|l ls IH]; intros r s H; cbn [app line_loop].
  - inversion H; subst. assert ((max <? length r)%nat = false) as -> by (apply Nat.ltb_ge; assumption). reflexivity.
  - inversion H as [|? ? Hl H']; subst. assert ((max <? length l)%nat = false) as -> by (apply Nat.ltb_ge; assumption).
    destruct (ls ++ [r]) eqn:E; [destruct ls; discriminate|]. rewrite <- E in *. cbn [andb].
    unfold take_lines. cbn [fold_left]. destruct (received cfg addr l s) as [s' why]. cbn [fst].
    rewrite E at 1. rewrite <- E. apply IH. exact H'.
Qed.
Fixpoint feed_chunks (closes : bool) (cs : list str) (k : conn) (s : @server S) : conn * @server S :=
  match cs with
  | [] => (k, s)
  | c :: cs' => let '(k', s') := data_received cfg max closes c k s in feed_chunks closes cs' k' s'
  end.
Lemma done_app a b : done (a ++ b) = done a ++ done (rest a ++ b).
Proof. unfold done. rewrite (cut_app (length a)) by lia. rewrite removelast_app by apply cut_nonempty. reflexivity. Qed.
Lemma rest_app a b : rest (a ++ b) = rest (rest a ++ b).
Proof.
  unfold rest. rewrite (cut_app (length a)) by lia. rewrite (cut_done (rest a ++ b)), app_assoc, !last_last. reflexivity.
Qed.
Lemma chunks_ok addr cs : forall w0 (s : @server S), short max (w0 ++ concat cs) ->
  exists ls, done (w0 ++ concat cs) = done w0 ++ ls /\
    feed_chunks false cs (Conn addr (rest w0) true) s = (Conn addr (rest (w0 ++ concat cs)) true, take_lines addr ls s).
Proof.
  induction cs as [|c cs IH]; intros w0 s Hs; cbn [concat feed_chunks].
  - exists []. rewrite !app_nil_r. auto.
  - cbn [concat] in Hs. rewrite app_assoc in Hs.
    assert (Hp : Forall (fun p => (length p <= max)%nat) (cut (rest w0 ++ c))).
    { pose proof (Hs (w0 ++ c) (concat cs) eq_refl) as H. rewrite (cut_app (length w0)) in H by lia.
      apply Forall_app in H. apply H. }
    unfold data_received. cbn [k_open k_buf k_addr]. rewrite cut_done in Hp |- *. rewrite line_loop_ok by exact Hp.
    destruct (IH (w0 ++ c) (take_lines addr (done (rest w0 ++ c)) s) Hs) as (ls & H1 & H2).
    rewrite <- rest_app, H2. exists (done (rest w0 ++ c) ++ ls). rewrite !app_assoc. split.
    + rewrite H1, done_app. reflexivity.
    + unfold take_lines. rewrite fold_left_app. reflexivity.
Qed.
Lemma stream_ok addr cs (s : @server S) : short max (concat cs) ->
  feed_chunks false cs (conn_new addr) s = (Conn addr (rest (concat cs)) true, take_lines addr (done (concat cs)) s).
Proof.
  intros H. destruct (chunks_ok addr cs [] s H) as (ls & H1 & H2). cbn in H1. subst ls. exact H2.
Qed.
End receive.

(** ** A paused connection *)
Inductive pevent := PWrite (text : str) | PPause (now : Z) | PResume (now : Z).
Definition pstep (e : pevent) : M tproto unit :=
  match e with PWrite t => tp_write t | PPause n => tp_pause n | PResume n => tp_resume n end.
(** the caller (the reactor, or the router) survives what is raised *)
Fixpoint prun (es : list pevent) (p : tproto) : tproto * list (res unit) :=
  match es with
  | [] => (p, [])
  | e :: es' => let '(p1, r) := pstep e p in let '(p2, rs) := prun es' p1 in (p2, r :: rs)
  end.
Definition count_writes (es : list pevent) : nat :=
  length (List.filter (fun e => match e with PWrite _ => true | _ => false end) es).
Definition outcome (e : pevent) : res unit := match e with PResume _ => Exn TypeError | _ => Ok tt end.
Lemma resume_raises now p : tp_resume now p = (p, Exn TypeError).
Proof. unfold tp_resume, bnd, get_, lift_, raise. destruct (tp_last p); reflexivity. Qed.
Lemma paused_forever es : forall p, tp_paused p = true ->
  let '(p', rs) := prun es p in
  tp_paused p' = true /\ tp_wire p' = tp_wire p /\ tp_dropped p' = (tp_dropped p + count_writes es)%nat /\
  rs = map outcome es.
Proof.
  induction es as [|e es IH]; intros p Hp; cbn [prun].
  - unfold count_writes. cbn. repeat split; auto.
  - destruct e as [t|n|n]; cbn [pstep].
    + unfold tp_write. rewrite Hp. specialize (IH (TP true (tp_last p) (Datatypes.S (tp_dropped p)) (tp_wire p)) eq_refl).
      destruct (prun es _) as [p' rs]. destruct IH as (-> & -> & -> & ->). cbn. unfold count_writes. cbn. repeat split; lia.
    + unfold tp_pause, mod_. specialize (IH (TP true (Some n) (tp_dropped p) (tp_wire p)) eq_refl).
      destruct (prun es _) as [p' rs]. destruct IH as (-> & -> & -> & ->). cbn. repeat split.
    + rewrite resume_raises. specialize (IH p Hp).
      destruct (prun es p) as [p' rs]. destruct IH as (-> & -> & -> & ->). cbn. repeat split.
Qed.
Lemma unpaused_writes ts : forall p, tp_paused p = false -> Forall (fun t => t <> []) ts ->
  prun (map PWrite ts) p =
  (TP false (tp_last p) (tp_dropped p) (tp_wire p ++ map (fun t => body t ++ CRLF) ts), map (fun _ => Ok tt) ts).
Proof.
  induction ts as [|t ts IH]; intros p Hp Ht; cbn [map prun].
  - rewrite app_nil_r. destruct p; cbn in *; subst; reflexivity.
  - inversion_clear Ht. cbn [pstep]. rewrite tp_write_frame by assumption. rewrite IH by (auto; reflexivity). cbn.
    rewrite <- app_assoc. reflexivity.
Qed.
Lemma wire_ok p ts : tp_wire p = [] -> tp_paused p = false -> Forall (fun t => t <> []) ts ->
  concat (tp_wire (fst (prun (map PWrite ts) p))) = wire_of ts.
Proof. intros Hw Hp Ht. rewrite unpaused_writes by assumption. cbn. rewrite Hw. reflexivity. Qed.

(** ** CRLF inside a metric's text *)
Lemma crlf_mid a c b : c <> c_cr -> c <> c_nl -> (crlf_in (a ++ c :: b) <-> crlf_in a \/ crlf_in b).
Proof.
  intros H1 H2. split.
  - intros (u & v & H). revert a H. induction u as [|x u IH]; intros a H.
    + destruct a as [|y [|z a1]]; cbn in H.
      * injection H as E _. exfalso. apply H1. exact E.
      * injection H as _ E _. exfalso. apply H2. exact E.
      * injection H as -> -> _. left. exists [], a1. reflexivity.
    + destruct a as [|y a]; cbn in H; injection H as -> H.
      * right. exists u, v. exact H.
      * destruct (IH a H) as [(p & q & ->)|Hb]; [left; exists (x :: p), q; reflexivity|auto].
  - intros [(u & v & ->)|(u & v & ->)].
    + exists u, (v ++ c :: b). rewrite <- app_assoc. reflexivity.
    + exists (a ++ c :: u), v. rewrite <- app_assoc. reflexivity.
Qed.
Lemma crlf_barred fs : crlf_in (barred fs) <-> Exists crlf_in fs.
Proof.
  induction fs as [|f [|g fs] IH].
  - cbn. split; [intros (u & v & H); destruct u; discriminate|intros H; inversion H].
  - cbn. rewrite Exists_cons, Exists_nil. tauto.
  - change (barred (f :: g :: fs)) with (f ++ "|"%char :: barred (g :: fs)). rewrite crlf_mid by discriminate.
    rewrite Exists_cons, <- IH. reflexivity.
Qed.
Lemma crlf_text t k fs : crlf_in (text_of (t, k, fs)) <-> crlf_in k \/ Exists crlf_in fs.
Proof.
  unfold text_of. change (k ++ B ":" ++ barred fs) with (k ++ ":"%char :: barred fs).
  rewrite crlf_mid by discriminate. rewrite crlf_barred. reflexivity.
Qed.
Lemma line_tail m k fs k' c : line_of m k fs -> ends_in c (k' ++ B ":" ++ barred fs) -> ~ In c ws_chars.
Proof.
  intros (H1 & _ & H3 & _) (u & Hu). destruct H1 as (a & b & _ & _ & _ & [_ Hw]).
  assert (Hb : exists v d, barred fs = v ++ [d]).
  { destruct (barred fs) as [|x y] eqn:E using rev_ind; [|eauto]. exfalso.
    destruct fs as [|f [|g l]]; cbn in H3; try lia. cbn in E. destruct f; discriminate. }
  destruct Hb as (v & d & Hb). rewrite Hb in Hu, Hw. rewrite !app_assoc in Hu. apply app_inj_tail in Hu as [_ <-].
  eapply Hw. rewrite !app_assoc. reflexivity.
Qed.
