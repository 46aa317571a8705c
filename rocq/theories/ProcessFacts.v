(** The parsers and reporters of process.py meet ProcessSpec. *)
From Verif Require Import Base Num StrFacts LineSpec LineFacts FloatFacts Glob Processor RouterSpec RouterFacts ProcSpec Process ProcessSpec.

(** ** Text *)
Lemma cut_iff c s ps : cut c s ps <-> split_on c s = ps.
Proof. apply split_on_iff. Qed.
Lemma list_filter_eq (ps : list str) : List.filter nonempty ps = filter (fun p => p <> []) ps.
Proof.
  induction ps as [|p ps IH]; [reflexivity|]. rewrite filter_cons. cbn.
  destruct p as [|c p]; cbn; rewrite IH; [|reflexivity].
  rewrite decide_False; [reflexivity|]. intros H; apply H; reflexivity.
Qed.
Lemma words_iff line ws : words line ws <-> List.filter nonempty (split_on " " line) = ws.
Proof.
  unfold words. rewrite list_filter_eq. split.
  - intros (ps & H & ->). apply cut_iff in H as ->. reflexivity.
  - intros <-. exists (split_on " " line). split; [apply cut_iff; reflexivity|reflexivity].
Qed.
Lemma to_int_iff s n : to_int s = Ok n <-> int_text s n.
Proof.
  unfold to_int. rewrite <- parse_int_iff. destruct (parse_int s); split; intros H; inversion H; reflexivity.
Qed.
Lemma to_int_exn s e : to_int s = Exn e <-> e = ValueError /\ forall n, ~ int_text s n.
Proof.
  unfold to_int. destruct (parse_int s) as [z|] eqn:E; split.
  - discriminate.
  - intros [_ H]. exfalso. apply (H z). apply parse_int_iff, E.
  - intros H; inversion H; subst. split; [reflexivity|]. intros n Hn. apply parse_int_iff in Hn. congruence.
  - intros [-> _]. reflexivity.
Qed.

Lemma ws_go_gap gap s : all_in ws_chars gap -> split_ws_go [] (gap ++ s) = split_ws_go [] s.
Proof.
  induction gap as [|c g IH]; intros H; [reflexivity|]. cbn [app split_ws_go].
  rewrite (proj2 (is_space_iff c)) by (apply H; left; reflexivity). cbn [nonempty].
  apply IH. intros d Hd. apply H. right; exact Hd.
Qed.
Lemma ws_go_word w : forall cur s, (forall c, In c w -> ~ In c ws_chars) -> split_ws_go cur (w ++ s) = split_ws_go (cur ++ w) s.
Proof.
  induction w as [|c w IH]; intros cur s H; [rewrite app_nil_r; reflexivity|]. cbn [app split_ws_go].
  rewrite (proj2 (is_space_niff c)) by (apply H; left; reflexivity).
  rewrite IH by (intros d Hd; apply H; right; exact Hd). rewrite <- app_assoc. reflexivity.
Qed.
Lemma ws_go_end cur s : cur <> [] -> (forall c r, s = c :: r -> In c ws_chars) ->
  split_ws_go cur s = cur :: split_ws_go [] s.
Proof.
  intros Hc Hs. destruct s as [|c s]; cbn [split_ws_go]; (destruct cur as [|x cur]; [contradiction|]); [reflexivity|].
  rewrite (proj2 (is_space_iff c)) by (eapply Hs; reflexivity). reflexivity.
Qed.
Lemma ws_words_split s ws : ws_words s ws -> split_ws s = ws.
Proof.
  unfold split_ws. induction 1 as [gap H|gap w rest ws Hg Hw Hc Hr H IH].
  - rewrite <- (app_nil_r gap). rewrite ws_go_gap by exact H. reflexivity.
  - rewrite ws_go_gap by exact Hg. rewrite ws_go_word by exact Hc. cbn [app].
    rewrite ws_go_end by assumption. rewrite IH. reflexivity.
Qed.
Lemma ws_words_total : forall n s, (length s <= n)%nat -> exists ws, ws_words s ws.
Proof.
  induction n as [|n IH]; intros s Hn.
  - destruct s; [|cbn in Hn; lia]. exists []. constructor. intros c [].
  - destruct (span_spec is_space s) as (Hs & Hsp & Hrest).
    destruct (span is_space s) as [gap r]. cbn [fst snd] in *.
    assert (Hgap : all_in ws_chars gap).
    { intros c Hc. apply is_space_iff. apply (proj1 (forallb_forall _ _) Hsp c Hc). }
    destruct r as [|c r].
    + exists []. rewrite Hs, app_nil_r. constructor. exact Hgap.
    + destruct (span_spec (fun c => negb (is_space c)) (c :: r)) as (Hr & Hw & Hrest').
      destruct (span (fun c => negb (is_space c)) (c :: r)) as [w rest]. cbn [fst snd] in *.
      assert (w <> []) as Hne.
      { intros ->. cbn in Hr. rewrite <- Hr in Hrest'. cbn in Hrest'. rewrite Hrest in Hrest'. discriminate. }
      destruct (IH rest) as (ws & Hws).
      { rewrite Hs, Hr in Hn. rewrite !app_length in Hn. destruct w; [contradiction|]. cbn in Hn. lia. }
      exists (w :: ws). rewrite Hs, Hr. constructor; try assumption.
      * intros d Hd. apply is_space_niff. pose proof (proj1 (forallb_forall _ _) Hw d Hd) as E. cbn in E.
        destruct (is_space d); [discriminate|reflexivity].
      * intros d r' ->. apply is_space_iff. destruct (is_space d); [reflexivity|discriminate].
Qed.
Lemma ws_words_iff s ws : ws_words s ws <-> split_ws s = ws.
Proof.
  split; [apply ws_words_split|]. intros <-.
  destruct (ws_words_total (length s) s (le_n _)) as (ws & H). rewrite (ws_words_split s ws H). exact H.
Qed.

Lemma sl_go_line l : forall cur s, one_line l -> splitlines_go cur (l ++ s) = splitlines_go (cur ++ l) s.
Proof.
  induction l as [|c l IH]; intros cur s [H1 H2]; [rewrite app_nil_r; reflexivity|]. cbn [app splitlines_go].
  destruct (eqc c c_nl) eqn:E1; [apply eqc_eq in E1; subst; exfalso; apply H1; left; reflexivity|].
  destruct (eqc c c_cr) eqn:E2; [apply eqc_eq in E2; subst; exfalso; apply H2; left; reflexivity|].
  rewrite IH by (split; intros H; [apply H1|apply H2]; right; exact H). rewrite <- app_assoc. reflexivity.
Qed.
Lemma lines_of_split s ls : lines_of s ls -> splitlines s = ls.
Proof.
  unfold splitlines. induction 1 as [|l Hne Hl|l s ls Hl H IH|l s ls Hl H IH|l s ls Hl Hs H IH].
  - reflexivity.
  - rewrite <- (app_nil_r l) at 1. rewrite sl_go_line by exact Hl. destruct l; [contradiction|]. reflexivity.
  - rewrite sl_go_line by exact Hl. rewrite <- IH. reflexivity.
  - rewrite sl_go_line by exact Hl. rewrite <- IH. reflexivity.
  - rewrite sl_go_line by exact Hl. rewrite <- IH. cbn [app splitlines_go].
    change (eqc c_cr c_nl) with false. change (eqc c_cr c_cr) with true. cbn iota.
    destruct s as [|d s]; [reflexivity|]. destruct (eqc d c_nl) eqn:E; [|reflexivity].
    apply eqc_eq in E; subst. exfalso. eapply Hs. reflexivity.
Qed.
Lemma lines_of_total : forall n s, (length s <= n)%nat -> exists ls, lines_of s ls.
Proof.
  induction n as [|n IH]; intros s Hn.
  - destruct s; [|cbn in Hn; lia]. exists []. constructor.
  - set (p := fun c => negb (eqc c c_nl) && negb (eqc c c_cr)).
    destruct (span_spec p s) as (Hs & Hp & Hrest). destruct (span p s) as [l r]. cbn [fst snd] in *.
    assert (Hl : one_line l).
    { split; intros Hc; pose proof (proj1 (forallb_forall _ _) Hp _ Hc) as E; cbv in E; discriminate. }
    destruct r as [|c r].
    + rewrite Hs, app_nil_r. destruct l as [|x l]; [exists []; constructor|]. exists [x :: l].
      apply lo_last; [discriminate|exact Hl].
    + assert (c = c_nl \/ c = c_cr) as [->| ->].
      { unfold p in Hrest. destruct (eqc c c_nl) eqn:E1; [left; apply eqc_eq, E1|].
        destruct (eqc c c_cr) eqn:E2; [right; apply eqc_eq, E2|]. discriminate. }
      * destruct (IH r) as (ls & H); [rewrite Hs, app_length in Hn; cbn in Hn; lia|].
        exists (l :: ls). rewrite Hs. apply lo_nl; assumption.
      * destruct r as [|d r].
        { exists [l]. rewrite Hs. apply (lo_cr l [] []); [exact Hl|discriminate|constructor]. }
        destruct (eqc d c_nl) eqn:Ed.
        { apply eqc_eq in Ed; subst d. destruct (IH r) as (ls & H); [rewrite Hs, app_length in Hn; cbn in Hn; lia|].
          exists (l :: ls). rewrite Hs. apply lo_crnl; assumption. }
        destruct (IH (d :: r)) as (ls & H); [rewrite Hs, app_length in Hn; cbn in Hn; cbn; lia|].
        exists (l :: ls). rewrite Hs. apply (lo_cr l (d :: r) ls Hl); [|exact H].
        intros s' E. inversion E; subst. rewrite eqc_refl in Ed. discriminate.
Qed.
Lemma lines_of_iff s ls : lines_of s ls <-> splitlines s = ls.
Proof.
  split; [apply lines_of_split|]. intros <-.
  destruct (lines_of_total (length s) s (le_n _)) as (ls & H). rewrite (lines_of_split s ls H). exact H.
Qed.

(** ** dictionaries *)
Section dicts.
Context {V : Type}.
Definition add_all (l : list (str * V)) (m : gmap str V) : gmap str V :=
  fold_left (fun m '(k, v) => <[k := v]> m) l m.
Lemma add_all_app l1 l2 m : add_all (l1 ++ l2) m = add_all l2 (add_all l1 m).
Proof. apply fold_left_app. Qed.
Lemma add_all_lookup l : forall m k v, add_all l m !! k = Some v <->
  last_of l k v \/ (forall v', ~ In (k, v') l) /\ m !! k = Some v.
Proof.
  induction l as [|[k0 v0] l IH]; intros m k v.
  - cbn. split; [intros H; right; split; [intros v' []|exact H]|]. intros [(a & b & E & _)|[_ H]]; [|exact H].
    destruct a; discriminate.
  - change (add_all ((k0, v0) :: l) m) with (add_all l (<[k0:=v0]> m)). rewrite IH. split.
    + intros [(a & b & E & Hb)|[Hn H]].
      * left. exists ((k0, v0) :: a), b. rewrite E. split; [reflexivity|exact Hb].
      * destruct (decide (k0 = k)) as [->|Hk].
        -- rewrite lookup_insert in H. inversion H; subst. left. exists [], l. split; [reflexivity|exact Hn].
        -- rewrite lookup_insert_ne in H by exact Hk. right. split; [|exact H].
           intros v' [E|E]; [inversion E; congruence|exact (Hn v' E)].
    + intros [(a & b & E & Hb)|[Hn H]].
      * destruct a as [|p a]; inversion E; subst.
        -- right. split; [exact Hb|]. apply lookup_insert.
        -- left. exists a, b. split; [reflexivity|exact Hb].
      * right. split; [intros v' E; apply (Hn v'); right; exact E|].
        rewrite lookup_insert_ne; [exact H|]. intros ->. apply (Hn v0). left; reflexivity.
Qed.
Lemma add_all_dict l : dict_of l (add_all l ∅).
Proof.
  intros k v. rewrite add_all_lookup. split; [|intros H; left; exact H].
  intros [H|[_ H]]; [exact H|]. rewrite lookup_empty in H. discriminate.
Qed.
Lemma dict_of_fun l m : dict_of l m <-> m = add_all l ∅.
Proof.
  split.
  - intros H. apply map_eq. intros k. apply option_eq. intros v. rewrite (H k v), (add_all_dict l k v). reflexivity.
  - intros ->. apply add_all_dict.
Qed.
End dicts.

Lemma rfold_add {A V} (f : gmap str V -> A -> res (gmap str V)) (good : A -> list (str * V) -> Prop)
  (Hf : forall a m m', f m a = Ok m' <-> exists ps, good a ps /\ m' = add_all ps m) :
  forall l m m', rfold f l m = Ok m' <-> exists pss, Forall2 good l pss /\ m' = add_all (concat pss) m.
Proof.
  induction l as [|a l IH]; intros m m'; cbn [rfold].
  - split.
    + intros H; inversion H; subst. exists []. split; [constructor|reflexivity].
    + intros (pss & H & ->). inversion H; subst. reflexivity.
  - unfold rbind. destruct (f m a) as [m1|e] eqn:E.
    + apply Hf in E as (ps & Hps & ->). rewrite IH. split.
      * intros (pss & H & ->). exists (ps :: pss). split; [constructor; assumption|]. cbn [concat]. rewrite add_all_app. reflexivity.
      * intros (pss & H & ->). inversion H as [|? ps' ? pss' Ha Hl]; subst. cbn [concat].
        assert (E : f m a = Ok (add_all ps m)) by (apply Hf; eauto).
        assert (E' : f m a = Ok (add_all ps' m)) by (apply Hf; eauto).
        rewrite E in E'. inversion E' as [E'']. exists pss'. split; [exact Hl|]. rewrite add_all_app, E''. reflexivity.
    + split; [discriminate|]. intros (pss & H & _). inversion H as [|? ps' ? pss' Ha Hl]; subst.
      assert (E' : f m a = Ok (add_all ps' m)) by (apply Hf; eauto). congruence.
Qed.
Lemma rfold_exn {A S} (f : S -> A -> res S) (good : A -> Prop) (bad : A -> exn -> Prop)
  (Hg : forall a s, good a <-> exists s', f s a = Ok s') (Hb : forall a s e, bad a e <-> f s a = Exn e) :
  forall l s e, rfold f l s = Exn e <-> exists pre a post, l = pre ++ a :: post /\ Forall good pre /\ bad a e.
Proof.
  induction l as [|a l IH]; intros s e; cbn [rfold].
  - split; [discriminate|]. intros (pre & a & post & E & _). destruct pre; discriminate.
  - unfold rbind. destruct (f s a) as [s1|e1] eqn:E.
    + rewrite IH. split.
      * intros (pre & b & post & -> & Hpre & Hbad). exists (a :: pre), b, post.
        split; [reflexivity|]. split; [constructor; [apply (Hg a s); eauto|exact Hpre]|exact Hbad].
      * intros (pre & b & post & El & Hpre & Hbad). destruct pre as [|p pre]; inversion El; subst.
        -- apply (Hb b s e) in Hbad. congruence.
        -- exists pre, b, post. inversion Hpre; subst. split; [reflexivity|]. split; assumption.
    + split.
      * intros H; inversion H; subst. exists [], a, l. split; [reflexivity|]. split; [constructor|]. apply (Hb a s e), E.
      * intros (pre & b & post & El & Hpre & Hbad). destruct pre as [|p pre]; inversion El; subst.
        -- apply (Hb b s e) in Hbad. congruence.
        -- inversion Hpre as [|? ? Hp _]; subst. apply (Hg p s) in Hp as (s' & Hs'). congruence.
Qed.

(** ** meminfo *)
Lemma keys_label w : existsb (str_eqb w) meminfo_keys = true <-> exists k, memory_label w k.
Proof.
  rewrite existsb_str. change meminfo_keys with (map (fun k => k ++ B ":") memory_labels). rewrite in_map_iff. split.
  - intros (k & <- & H). exists k. split; [exact H|reflexivity].
  - intros (k & H & ->). exists k. split; [reflexivity|exact H].
Qed.
Lemma label_strip w k : memory_label w k -> removelast w = k.
Proof. intros [_ ->]. apply removelast_last. Qed.
Lemma multiplier_iff u b : multiplier u = Ok b <-> unit_bytes u b.
Proof.
  unfold multiplier. split.
  - destruct (str_eqb u (B "kB")) eqn:E1; [apply str_eqb_eq in E1; subst; intros H; inversion H; constructor|].
    destruct (str_eqb u (B "mB")) eqn:E2; [apply str_eqb_eq in E2; subst; intros H; inversion H; apply ub_m|discriminate].
  - intros []; reflexivity.
Qed.
Lemma multiplier_exn u e : multiplier u = Exn e <-> e = KeyError /\ forall b, ~ unit_bytes u b.
Proof.
  split.
  - intros H. split.
    + unfold multiplier in H. destruct (str_eqb u (B "kB")); [discriminate|]. destruct (str_eqb u (B "mB")); [discriminate|].
      inversion H; reflexivity.
    + intros b Hb. apply multiplier_iff in Hb. congruence.
  - intros [-> H]. destruct (multiplier u) as [b|e] eqn:E; [apply multiplier_iff in E; exfalso; exact (H b E)|].
    unfold multiplier in E. destruct (str_eqb u (B "kB")); [discriminate|]. destruct (str_eqb u (B "mB")); [discriminate|].
    inversion E; reflexivity.
Qed.
Lemma words_fun line a b : words line a -> words line b -> a = b.
Proof. intros H1 H2. apply words_iff in H1, H2. congruence. Qed.
Lemma words_nil line : words line [] <-> forall c, In c line -> c = " "%char.
Proof.
  rewrite words_iff. split.
  - intros H c Hc. rewrite <- (join_split_on " " line) in Hc.
    assert (Forall (fun p => p = []) (split_on " " line)) as Hall.
    { apply Forall_forall. intros p Hp. destruct p as [|x p]; [reflexivity|]. exfalso.
      assert (In (x :: p) (List.filter nonempty (split_on " " line))) as Hin by (apply filter_In; split; [apply elem_of_list_In, Hp|reflexivity]).
      rewrite H in Hin. exact Hin. }
    clear H. induction Hall as [|p l -> Hl IH]; [destruct Hc|].
    destruct l as [|q l]; [destruct Hc|].
    rewrite join_cons in Hc by discriminate. cbn [app] in Hc. destruct Hc as [<-|Hc]; [reflexivity|]. apply IH, Hc.
  - intros H. induction line as [|c line IH]; [reflexivity|].
    assert (c = " "%char) as -> by (apply H; left; reflexivity).
    change (" "%char :: line) with ([] ++ " "%char :: line). rewrite split_on_app by (intros []). cbn [List.filter nonempty].
    apply IH. intros d Hd. apply H. right; exact Hd.
Qed.
Lemma words_nonempty line w ws : words line (w :: ws) -> line <> [].
Proof. intros H ->. apply words_iff in H. cbn in H. discriminate. Qed.

Definition keyed (prefix : str) : list (str * Z) -> list (str * Z) := map (fun '(k, v) => (prefix ++ B "." ++ k, v)).
Lemma meminfo_line_ok prefix line m m' : meminfo_line prefix m line = Ok m' <->
  exists ps, (exists qs, mem_line line qs /\ ps = keyed prefix qs) /\ m' = add_all ps m.
Proof.
  split.
  - unfold meminfo_line. destruct line as [|c0 line0]; cbn [nonempty].
    { intros H; inversion H; subst. exists []. split; [exists []; split; [constructor|reflexivity]|reflexivity]. }
    set (line := c0 :: line0).
    assert (Hw : words line (List.filter nonempty (split_on " " line))) by (apply words_iff; reflexivity).
    destruct (List.filter nonempty (split_on " " line)) as [|w rest]; [discriminate|].
    destruct (existsb (str_eqb w) meminfo_keys) eqn:Ek.
    2:{ intros H; inversion H; subst. exists []. split; [|reflexivity]. exists []. split; [|reflexivity].
        eapply ml_other; [exact Hw|]. intros k Hk. assert (existsb (str_eqb w) meminfo_keys = true) by (apply keys_label; eauto). congruence. }
    apply keys_label in Ek as (k & Hk). rewrite (label_strip w k Hk).
    destruct rest as [|a rest]; [discriminate|].
    destruct rest as [|u rest]; cbn [rbind]; [|destruct rest as [|u2 rest]; cbn [rbind]].
    + destruct (to_int a) as [n|e] eqn:Ea; [|discriminate]. cbn [rbind]. apply to_int_iff in Ea.
      intros H; inversion H; subst. exists [(prefix ++ B "." ++ k, n)]. rewrite Z.mul_1_r. split; [|reflexivity].
      exists [(k, n)]. split; [eapply ml_plain; eauto; discriminate|reflexivity].
    + destruct (multiplier u) as [b|e] eqn:Eu; [|discriminate]. cbn [rbind]. apply multiplier_iff in Eu.
      destruct (to_int a) as [n|e] eqn:Ea; [|discriminate]. cbn [rbind]. apply to_int_iff in Ea.
      intros H; inversion H; subst. exists [(prefix ++ B "." ++ k, n * b)]. split; [|reflexivity].
      exists [(k, n * b)]. split; [eapply ml_unit; eauto|reflexivity].
    + destruct (to_int a) as [n|e] eqn:Ea; [|discriminate]. cbn [rbind]. apply to_int_iff in Ea.
      intros H; inversion H; subst. exists [(prefix ++ B "." ++ k, n)]. rewrite Z.mul_1_r. split; [|reflexivity].
      exists [(k, n)]. split; [eapply ml_plain; eauto; discriminate|reflexivity].
  - intros (ps & (qs & Hq & ->) & ->).
    destruct Hq as [|line w ws Hw Hk|line w k a u n b Hw Hk Ha Hu|line w k a ws n Hw Hk Hl Ha].
    + reflexivity.
    + pose proof (words_nonempty _ _ _ Hw). unfold meminfo_line. destruct line as [|c0 line0]; [contradiction|]. cbn [nonempty].
      apply words_iff in Hw. rewrite Hw.
      destruct (existsb (str_eqb w) meminfo_keys) eqn:Ek; [|reflexivity]. apply keys_label in Ek as (k & Hk'). exfalso. exact (Hk k Hk').
    + pose proof (words_nonempty _ _ _ Hw). unfold meminfo_line. destruct line as [|c0 line0]; [contradiction|]. cbn [nonempty].
      apply words_iff in Hw. rewrite Hw. rewrite (proj2 (keys_label w)) by eauto.
      apply multiplier_iff in Hu. apply to_int_iff in Ha. rewrite Hu. cbn [rbind]. rewrite Ha. cbn [rbind].
      rewrite (label_strip w k Hk). reflexivity.
    + pose proof (words_nonempty _ _ _ Hw). unfold meminfo_line. destruct line as [|c0 line0]; [contradiction|]. cbn [nonempty].
      apply words_iff in Hw. rewrite Hw. rewrite (proj2 (keys_label w)) by eauto.
      apply to_int_iff in Ha. destruct ws as [|u [|u2 ws]]; [|exfalso; apply Hl; reflexivity|];
        cbn [rbind]; rewrite Ha; cbn [rbind]; rewrite (label_strip w k Hk), Z.mul_1_r; reflexivity.
Qed.
Lemma meminfo_line_exn prefix line m e : mem_bad line e <-> meminfo_line prefix m line = Exn e.
Proof.
  split.
  - intros Hbad. destruct Hbad as [line Hne Hb|line w k Hw Hk|line w k a u Hw Hk Hu|line w k a ws Hw Hk Hu Ha].
    + unfold meminfo_line. apply words_nil, words_iff in Hb. destruct line as [|c0 line0]; [contradiction|]. cbn [nonempty].
      rewrite Hb. reflexivity.
    + pose proof (words_nonempty _ _ _ Hw). unfold meminfo_line. destruct line as [|c0 line0]; [contradiction|]. cbn [nonempty].
      apply words_iff in Hw. rewrite Hw, (proj2 (keys_label w)) by eauto. reflexivity.
    + pose proof (words_nonempty _ _ _ Hw). unfold meminfo_line. destruct line as [|c0 line0]; [contradiction|]. cbn [nonempty].
      apply words_iff in Hw. rewrite Hw, (proj2 (keys_label w)) by eauto.
      rewrite (proj2 (multiplier_exn u KeyError)) by (split; [reflexivity|exact Hu]). reflexivity.
    + pose proof (words_nonempty _ _ _ Hw). unfold meminfo_line. destruct line as [|c0 line0]; [contradiction|]. cbn [nonempty].
      apply words_iff in Hw. rewrite Hw, (proj2 (keys_label w)) by eauto.
      assert (Hi : to_int a = Exn ValueError) by (apply to_int_exn; split; [reflexivity|exact Ha]).
      destruct ws as [|u [|u2 ws]]; cbn [rbind].
      * rewrite Hi. reflexivity.
      * destruct (Hu u eq_refl) as (b & Hb). apply multiplier_iff in Hb. rewrite Hb. cbn [rbind]. rewrite Hi. reflexivity.
      * rewrite Hi. reflexivity.
  - unfold meminfo_line. destruct line as [|c0 line0]; cbn [nonempty]; [discriminate|].
    set (line := c0 :: line0).
    assert (Hw : words line (List.filter nonempty (split_on " " line))) by (apply words_iff; reflexivity).
    destruct (List.filter nonempty (split_on " " line)) as [|w rest].
    { intros H; inversion H; subst. apply mb_blank; [discriminate|]. apply words_nil, Hw. }
    destruct (existsb (str_eqb w) meminfo_keys) eqn:Ek; [|discriminate].
    apply keys_label in Ek as (k & Hk).
    destruct rest as [|a rest].
    { intros H; inversion H; subst. eapply mb_alone; eauto. }
    destruct rest as [|u rest]; cbn [rbind]; [|destruct rest as [|u2 rest]; cbn [rbind]].
    + destruct (to_int a) as [n|e'] eqn:Ea; [discriminate|]. cbn [rbind]. apply to_int_exn in Ea as [-> Ha].
      intros H; inversion H; subst. eapply mb_number; eauto. intros u E; discriminate.
    + destruct (multiplier u) as [b|e'] eqn:Eu; cbn [rbind].
      * apply multiplier_iff in Eu. destruct (to_int a) as [n|e'] eqn:Ea; [discriminate|]. cbn [rbind].
        apply to_int_exn in Ea as [-> Ha]. intros H; inversion H; subst. eapply mb_number; eauto.
        intros u' E; inversion E; subst; eauto.
      * apply multiplier_exn in Eu as [-> Hu]. intros H; inversion H; subst. eapply mb_unit; eauto.
    + destruct (to_int a) as [n|e'] eqn:Ea; [discriminate|]. cbn [rbind]. apply to_int_exn in Ea as [-> Ha].
      intros H; inversion H; subst. eapply mb_number; eauto. intros u' E; discriminate.
Qed.

Lemma Forall2_keyed prefix lines pss : Forall2 (fun line ps => exists qs, mem_line line qs /\ ps = keyed prefix qs) lines pss <->
  exists qss, Forall2 mem_line lines qss /\ pss = map (keyed prefix) qss.
Proof.
  split.
  - induction 1 as [|l ps lines pss (qs & Hq & ->) H IH].
    + exists []. split; [constructor|reflexivity].
    + destruct IH as (qss & H1 & ->). exists (qs :: qss). split; [constructor; assumption|reflexivity].
  - intros (qss & H & ->). induction H; cbn; constructor; eauto.
Qed.
Lemma concat_keyed prefix qss : concat (map (keyed prefix) qss) = keyed prefix (concat qss).
Proof. unfold keyed. symmetry. apply concat_map. Qed.
Theorem meminfo_ok data prefix m : parse_meminfo data prefix = Ok m <->
  exists lines says, cut c_nl data lines /\ Forall2 mem_line lines says /\
                     dict_of (map (fun '(k, v) => (prefix ++ B "." ++ k, v)) (concat says)) m.
Proof.
  unfold parse_meminfo.
  rewrite (rfold_add _ (fun line ps => exists qs, mem_line line qs /\ ps = keyed prefix qs)).
  2:{ intros a m0 m'. apply meminfo_line_ok. }
  split.
  - intros (pss & H & ->). apply Forall2_keyed in H as (qss & H & ->). exists (split_on c_nl data), qss.
    split; [apply cut_iff; reflexivity|]. split; [exact H|]. apply dict_of_fun. rewrite concat_keyed. reflexivity.
  - intros (lines & qss & Hc & H & Hd). apply cut_iff in Hc. subst lines. exists (map (keyed prefix) qss).
    split; [apply Forall2_keyed; eauto|]. apply dict_of_fun in Hd. rewrite concat_keyed. exact Hd.
Qed.
Theorem meminfo_exn data prefix e : parse_meminfo data prefix = Exn e <->
  exists pre line post, cut c_nl data (pre ++ line :: post) /\
    Forall (fun l => exists says, mem_line l says) pre /\ mem_bad line e.
Proof.
  unfold parse_meminfo.
  rewrite (rfold_exn _ (fun l => exists says, mem_line l says) mem_bad).
  2:{ intros a s. split.
      - intros (says & H). eexists. apply meminfo_line_ok. eauto.
      - intros (s' & H). apply meminfo_line_ok in H as (ps & (qs & Hq & _) & _). eauto. }
  2:{ intros a s e0. apply meminfo_line_exn. }
  split.
  - intros (pre & a & post & E & H). exists pre, a, post. split; [apply cut_iff; exact E|exact H].
  - intros (pre & a & post & E & H). exists pre, a, post. split; [apply cut_iff; exact E|exact H].
Qed.

(** ** loadavg *)
Lemma rmap_iff {A C} (f : A -> res C) l cs : rmap f l = Ok cs <-> Forall2 (fun a c => f a = Ok c) l cs.
Proof.
  revert cs. induction l as [|a l IH]; intros cs; cbn [rmap].
  - split; intros H; inversion H; subst; [constructor|reflexivity].
  - unfold rbind. destruct (f a) as [c|e] eqn:E.
    + destruct (rmap f l) as [cs'|e] eqn:E'.
      * split.
        -- intros H; inversion H; subst. constructor; [exact E|]. apply IH. reflexivity.
        -- intros H; inversion H as [|? ? ? ? H1 H2]; subst. apply IH in H2. congruence.
      * split; [discriminate|]. intros H; inversion H as [|? ? ? ? H1 H2]; subst. apply IH in H2. discriminate.
    + split; [discriminate|]. intros H; inversion H; subst. congruence.
Qed.
Lemma rmap_exn {A C} (f : A -> res C) l e : rmap f l = Exn e -> exists a, In a l /\ f a = Exn e.
Proof.
  induction l as [|a l IH]; cbn [rmap]; [discriminate|]. unfold rbind. destruct (f a) as [c|e'] eqn:E.
  - destruct (rmap f l) as [cs|e'] eqn:E'; [discriminate|]. intros H; inversion H; subst.
    destruct (IH eq_refl) as (b & Hb & Hf). exists b. split; [right; exact Hb|exact Hf].
  - intros H; inversion H; subst. exists a. split; [left; reflexivity|exact E].
Qed.
Section loadavg.
Context `{NN : Num}.
Lemma to_float_iff s x : to_float s = Ok x <-> reads s x.
Proof.
  unfold to_float, reads, float_of. split.
  - destruct (parse_float s) as [l|] eqn:E; cbn; [|discriminate]. intros H; inversion H; subst.
    exists l. split; [apply parse_float_spec, E|reflexivity].
  - intros (l & H & ->). apply parse_float_spec in H. rewrite H. reflexivity.
Qed.
Lemma to_float_exn s e : to_float s = Exn e <-> e = ValueError /\ not_a_number s.
Proof.
  unfold to_float, not_a_number, float_of. destruct (parse_float s) as [l|] eqn:E; cbn; split.
  - discriminate.
  - intros [_ H]. exfalso. apply (H l). apply parse_float_spec, E.
  - intros H; inversion H. split; [reflexivity|]. intros v Hv. apply parse_float_spec in Hv. congruence.
  - intros [-> _]. reflexivity.
Qed.
Lemma Forall2_iff {A C} (P Q : A -> C -> Prop) l m : (forall a c, P a c <-> Q a c) -> (Forall2 P l m <-> Forall2 Q l m).
Proof. intros H. split; intros HF; induction HF; constructor; try assumption; apply H; assumption. Qed.
Theorem loadavg_ok data prefix r : parse_loadavg data prefix = Ok r <->
  exists ws xs, ws_words data ws /\ Forall2 reads (firstn 3 ws) xs /\
    r = combine [prefix ++ B ".oneminute"; prefix ++ B ".fiveminutes"; prefix ++ B ".fifthteenminutes"] xs.
Proof.
  unfold parse_loadavg, rbind. destruct (rmap to_float (firstn 3 (split_ws data))) as [xs|e] eqn:E.
  - apply rmap_iff in E. rewrite (Forall2_iff _ reads) in E by (intros; apply to_float_iff). split.
    + intros H. inversion H; subst. exists (split_ws data), xs. split; [apply ws_words_iff; reflexivity|]. split; [exact E|reflexivity].
    + intros (ws & xs' & Hw & Hr & ->). apply ws_words_iff in Hw. subst ws. f_equal. f_equal.
      assert (Hu : forall l m m', Forall2 reads l m -> Forall2 reads l m' -> m = m').
      { intros l m m' H1. revert m'. induction H1 as [|a c l m Ha H1 IH]; intros m' H2; inversion H2; subst; [reflexivity|].
        f_equal; [|apply IH; assumption].
        match goal with H : reads a ?y |- _ = ?y => apply to_float_iff in H; apply to_float_iff in Ha end. congruence. }
      eapply Hu; eassumption.
  - split; [discriminate|]. intros (ws & xs & Hw & Hr & _). apply ws_words_iff in Hw. subst ws.
    rewrite <- (Forall2_iff (fun a c => to_float a = Ok c)) in Hr by (intros; apply to_float_iff). apply rmap_iff in Hr. congruence.
Qed.
Theorem loadavg_exn data prefix e : parse_loadavg data prefix = Exn e <->
  e = ValueError /\ exists ws w, ws_words data ws /\ In w (firstn 3 ws) /\ not_a_number w.
Proof.
  unfold parse_loadavg, rbind. destruct (rmap to_float (firstn 3 (split_ws data))) as [xs|e'] eqn:E.
  - split; [discriminate|]. intros (_ & ws & w & Hw & Hin & Hn). apply ws_words_iff in Hw. subst ws.
    apply rmap_iff in E. exfalso. destruct (to_float w) as [x|] eqn:Ew.
    + apply to_float_iff in Ew as (l & Hl & _). exact (Hn l Hl).
    + revert Hin. induction E as [|a c l m Ha H IH]; [intros []|]. intros [->|Hin]; [congruence|auto].
  - apply rmap_exn in E as (w & Hin & Hf). apply to_float_exn in Hf as [-> Hn]. split.
    + intros H; inversion H. split; [reflexivity|]. exists (split_ws data), w.
      split; [apply ws_words_iff; reflexivity|]. split; assumption.
    + intros [-> _]. reflexivity.
Qed.
End loadavg.

(** ** netdev *)
Lemma last_of_unique {K V} (l : list (K * V)) k v v' : last_of l k v -> last_of l k v' -> v = v'.
Proof.
  intros (a & b & E & Hb) (a' & b' & E' & Hb'). rewrite E in E'. clear E. revert a' E'.
  induction a as [|p a IH]; intros [|p' a'] E'; inversion E'; subst.
  - reflexivity.
  - exfalso. apply (Hb v'). apply in_or_app. right. left. reflexivity.
  - exfalso. apply (Hb' v). apply in_or_app. right. left. reflexivity.
  - eapply IH; eassumption.
Qed.
Lemma rev_lookup {V} (l : list (str * V)) k v : list_to_map (M := gmap str V) (rev l) !! k = Some v <-> last_of l k v.
Proof.
  assert (E : list_to_map (M := gmap str V) (rev l) = add_all l ∅).
  { induction l as [|[k0 v0] l IH] using rev_ind; [reflexivity|].
    rewrite rev_app_distr. cbn [rev app]. rewrite list_to_map_cons, add_all_app, IH. reflexivity. }
  rewrite E. apply add_all_dict.
Qed.
Lemma zip_get_iff cols ns k v : zip_get cols ns k = Ok v <-> last_of (combine cols ns) k v.
Proof.
  rewrite <- rev_lookup. unfold zip_get. destruct (list_to_map _ !! k); split; intros H; inversion H; reflexivity.
Qed.
(** a name in the combined list *)
Lemma last_of_combine cols ns k v : last_of (combine cols ns) k v <-> received cols ns k v.
Proof.
  unfold received. revert ns. induction cols as [|c cols IH]; intros ns.
  - cbn. split.
    + intros (a & b & E & _). destruct a; discriminate.
    + intros (i & [Hi _] & _). rewrite firstn_nil in Hi. destruct i; discriminate.
  - destruct ns as [|n ns].
    { cbn. split; [intros (a & b & E & _); destruct a; discriminate|]. intros (i & [Hi _] & _). destruct i; discriminate. }
    cbn [combine length firstn]. split.
    + intros (a & b & E & Hb). destruct a as [|p a]; inversion E; subst.
      * exists 0%nat. split; [|reflexivity]. split; [reflexivity|]. intros [|j] Hj E'; [lia|]. cbn in E'.
        (* a later column of that name would be a later pair *)
        assert (exists v', In (k, v') (combine cols ns)) as (v' & Hv').
        { clear -E'. revert cols ns E'. induction j as [|j IHj]; intros [|c cols] [|n ns] E'; cbn in E'; try discriminate.
          - inversion E'; subst. exists n. left; reflexivity.
          - destruct (IHj _ _ E') as (v' & Hv'). exists v'. right; exact Hv'. }
        exact (Hb v' Hv').
      * destruct (proj1 (IH ns)) as (i & [Hi Hl] & Hn); [exists a, b; split; [assumption|exact Hb]|].
        exists (S i). split; [|exact Hn]. split; [exact Hi|]. intros [|j] Hj; [lia|]. cbn. apply Hl. lia.
    + intros ([|i] & [Hi Hl] & Hn).
      * cbn in Hi, Hn. inversion Hi; subst. inversion Hn; subst. exists [], (combine cols ns). split; [reflexivity|].
        intros v' Hv'. assert (exists j, nth_error (firstn (length ns) cols) j = Some k) as (j & Hj).
        { clear -Hv'. revert ns Hv'. induction cols as [|c cols IHc]; intros [|n ns] Hv'; try destruct Hv'.
          - inversion H; subst. exists 0%nat. reflexivity.
          - destruct (IHc _ H) as (j & Hj). exists (S j). exact Hj. }
        apply (Hl (S j)); [lia|exact Hj].
      * cbn in Hi, Hn. destruct (proj2 (IH ns)) as (a & b & E & Hb).
        { exists i. split; [|exact Hn]. split; [exact Hi|]. intros j Hj. apply (Hl (S j)). lia. }
        exists ((c, n) :: a), b. rewrite E. split; [reflexivity|exact Hb].
Qed.
Lemma combine_app_l {A C} (a b : list A) (l : list C) :
  combine (a ++ b) l = combine a l ++ combine b (skipn (length a) l).
Proof. revert l. induction a as [|x a IH]; intros [|y l]; cbn; try reflexivity; [destruct b; reflexivity|]. f_equal. apply IH. Qed.
Lemma last_of_app_l {V} (l1 l2 : list (str * V)) k v : (forall v', ~ In (k, v') l2) -> (last_of (l1 ++ l2) k v <-> last_of l1 k v).
Proof.
  intros Hn. split.
  - intros (a & b & E & Hb).
    revert a E. induction l1 as [|p l1 IH]; intros a E.
    { exfalso. apply (Hn v). cbn in E. rewrite E. apply in_or_app. right. left. reflexivity. }
    destruct a as [|q a]; inversion E; subst.
    + exists [], l1. split; [reflexivity|]. intros v' H'. apply (Hb v'). apply in_or_app. left; exact H'.
    + destruct (IH a) as (a' & b' & E' & Hb'); [assumption|]. exists (q :: a'), b'. rewrite E'. split; [reflexivity|exact Hb'].
  - intros (a & b & -> & Hb). exists a, (b ++ l2). rewrite <- app_assoc. split; [reflexivity|].
    intros v' H'. apply in_app_or in H' as [H'|H']; [exact (Hb v' H')|exact (Hn v' H')].
Qed.
Lemma last_of_app_r {V} (l1 l2 : list (str * V)) k v : (forall v', ~ In (k, v') l1) -> (last_of (l1 ++ l2) k v <-> last_of l2 k v).
Proof.
  intros Hn. split.
  - intros (a & b & E & Hb). revert a E. induction l1 as [|p l1 IH]; intros a E; [exists a, b; auto|].
    destruct a as [|q a]; inversion E; subst.
    + exfalso. apply (Hn v). left; reflexivity.
    + apply (IH (fun v' H => Hn v' (or_intror H)) a). assumption.
  - intros (a & b & -> & Hb). exists (l1 ++ a), b. rewrite app_assoc. split; [reflexivity|exact Hb].
Qed.
Lemma last_of_prefixed {V} (p : str) cols (ns : list V) c v :
  last_of (combine (map (fun c => p ++ c) cols) ns) (p ++ c) v <-> last_of (combine cols ns) c v.
Proof.
  assert (E : combine (map (fun c => p ++ c) cols) ns = map (fun '(k, v) => (p ++ k, v)) (combine cols ns)).
  { revert ns. induction cols as [|x cols IH]; intros [|n ns]; try reflexivity. cbn. f_equal. apply IH. }
  rewrite E. generalize (combine cols ns). intros l. split.
  - intros (a & b & E' & Hb). revert a E'. induction l as [|[k n] l IH]; intros a E'; [destruct a; discriminate|].
    destruct a as [|q a]; inversion E' as [[E1 E2]]; subst.
    + apply app_inv_head in E1 as ->. exists [], l. split; [reflexivity|]. intros v' H'. apply (Hb v').
      apply (in_map (fun '(k, v) => (p ++ k, v)) _ _ H').
    + destruct (IH a) as (a' & b' & -> & Hb'); [assumption|]. exists ((k, n) :: a'), b'. split; [reflexivity|exact Hb'].
  - intros (a & b & -> & Hb). exists (map (fun '(k, v) => (p ++ k, v)) a), (map (fun '(k, v) => (p ++ k, v)) b).
    rewrite map_app. split; [reflexivity|]. intros v' H'. apply in_map_iff in H' as ([k n] & E' & Hin).
    inversion E' as [[E1 E2]]. apply app_inv_head in E1. subst. exact (Hb _ Hin).
Qed.
Lemma no_pair {V} (f : str -> str) cols (ns : list V) k : (forall c, f c <> k) -> forall v, ~ In (k, v) (combine (map f cols) ns).
Proof.
  intros Hf v H. apply in_combine_l in H. apply in_map_iff in H as (c & E & _). exact (Hf c E).
Qed.
Definition columns (rcols tcols : list str) : list str :=
  map (fun c => B "recv_" ++ c) rcols ++ map (fun c => B "send_" ++ c) tcols.
Lemma zip_recv rcols tcols ns c v : zip_get (columns rcols tcols) ns (B "recv_" ++ c) = Ok v <-> received rcols ns c v.
Proof.
  rewrite zip_get_iff. unfold columns. rewrite combine_app_l, last_of_app_l, last_of_prefixed; [apply last_of_combine|].
  apply no_pair. intros c'. discriminate.
Qed.
Lemma zip_send rcols tcols ns c v : zip_get (columns rcols tcols) ns (B "send_" ++ c) = Ok v <-> transmitted rcols tcols ns c v.
Proof.
  rewrite zip_get_iff. unfold columns, transmitted. rewrite combine_app_l, last_of_app_r, map_length, last_of_prefixed; [apply last_of_combine|].
  apply no_pair. intros c'. discriminate.
Qed.
Lemma Forall2_ints ws ns : rmap to_int ws = Ok ns <-> Forall2 int_text ws ns.
Proof. rewrite rmap_iff. apply Forall2_iff. intros; apply to_int_iff. Qed.

Lemma netdev_line_ok prefix rcols tcols line m m' : netdev_line prefix (columns rcols tcols) m line = Ok m' <->
  exists ps, dev_line prefix rcols tcols line ps /\ m' = add_all ps m.
Proof.
  unfold netdev_line. destruct (has ":" line) eqn:Eh.
  2:{ apply has_not_In in Eh. split.
      - intros H; inversion H; subst. exists []. split; [apply dl_other, Eh|reflexivity].
      - intros (ps & Hd & ->). destruct Hd as [|line d name data ws ns rb sb rp sp E Hd]; [reflexivity|].
        exfalso. apply Eh. rewrite E. apply in_or_app. right. left. reflexivity. }
  apply has_In in Eh. split.
  - destruct (split_on ":" line) as [|d [|data [|x l]]] eqn:Es; try discriminate.
    assert (Hc : cut ":" line [d; data]) by (apply cut_iff, Es). destruct Hc as (_ & El & HF). cbn [spaced] in El.
    inversion HF as [|? ? Hd HF']; subst. inversion HF' as [|? ? Hdata _]; subst.
    unfold rbind. cbv zeta. destruct (rmap to_int (split_ws data)) as [ns|] eqn:Ei; [|discriminate].
    destruct (zip_get (columns rcols tcols) ns (B "recv_bytes")) as [rb|] eqn:E1; [|discriminate].
    destruct (zip_get (columns rcols tcols) ns (B "send_bytes")) as [sb|] eqn:E2; [|discriminate].
    destruct (zip_get (columns rcols tcols) ns (B "recv_packets")) as [rp|] eqn:E3; [|discriminate].
    destruct (zip_get (columns rcols tcols) ns (B "send_packets")) as [sp|] eqn:E4; [|discriminate].
    intros H; inversion H; subst. eexists. split.
    + eapply (dl_device prefix rcols tcols _ d (strip d) data (split_ws data) ns rb sb rp sp);
        [reflexivity|exact Hd|exact Hdata|apply stripped_strip; reflexivity|apply ws_words_iff; reflexivity|apply Forall2_ints, Ei| | | | ].
      * apply (zip_recv rcols tcols ns (B "bytes")), E1.
      * apply (zip_send rcols tcols ns (B "bytes")), E2.
      * apply (zip_recv rcols tcols ns (B "packets")), E3.
      * apply (zip_send rcols tcols ns (B "packets")), E4.
    + reflexivity.
  - intros (ps & Hl & ->). destruct Hl as [line Hn|line d name data ws ns rb sb rp sp El Hd Hdata Hs Hw Hi H1 H2 H3 H4]; [contradiction|].
    assert (Es : split_on ":" line = [d; data]).
    { rewrite El. change (B ":" ++ data) with (":"%char :: data). rewrite split_on_app by exact Hd. rewrite split_on_word by exact Hdata. reflexivity. }
    rewrite Es. apply ws_words_iff in Hw. rewrite Hw. apply Forall2_ints in Hi. rewrite Hi. cbn [rbind].
    apply (zip_recv rcols tcols ns (B "bytes")) in H1. apply (zip_send rcols tcols ns (B "bytes")) in H2.
    apply (zip_recv rcols tcols ns (B "packets")) in H3. apply (zip_send rcols tcols ns (B "packets")) in H4.
    change (B "recv_bytes") with (B "recv_" ++ B "bytes"). rewrite H1. cbn [rbind].
    change (B "send_bytes") with (B "send_" ++ B "bytes"). rewrite H2. cbn [rbind].
    change (B "recv_packets") with (B "recv_" ++ B "packets"). rewrite H3. cbn [rbind].
    change (B "send_packets") with (B "send_" ++ B "packets"). rewrite H4. cbn [rbind].
    apply stripped_strip in Hs. rewrite Hs. reflexivity.
Qed.
Theorem netdev_ok data prefix m : parse_netdev data prefix = Ok m <->
  exists lines says, lines_of data lines /\ dev_file prefix lines says /\ dict_of (concat says) m.
Proof.
  assert (Hdev : forall rcols tcols devs m', rfold (netdev_line prefix (columns rcols tcols)) devs ∅ = Ok m' <->
     exists pss, Forall2 (dev_line prefix rcols tcols) devs pss /\ m' = add_all (concat pss) ∅).
  { intros rcols tcols devs m'. apply rfold_add. intros. apply netdev_line_ok. }
  unfold parse_netdev. split.
  - destruct (splitlines data) as [|title [|header devs]] eqn:El; cbn [nth_error skipn]; try discriminate.
    destruct (split_on "|" header) as [|x [|r [|t [|y l]]]] eqn:Eh; try discriminate.
    change (map (fun c => B "recv_" ++ c) (split_ws r) ++ map (fun c => B "send_" ++ c) (split_ws t))
      with (columns (split_ws r) (split_ws t)).
    intros H. apply Hdev in H as (pss & H & ->). exists (title :: header :: devs), pss.
    split; [apply lines_of_iff, El|]. split; [|apply add_all_dict].
    econstructor; [apply cut_iff, Eh|apply ws_words_iff; reflexivity|apply ws_words_iff; reflexivity|exact H].
  - intros (lines & pss & Hl & Hf & Hd). apply lines_of_iff in Hl. rewrite Hl.
    destruct Hf as [title header r t x rcols tcols devs pss Hc Hr Ht HF]. cbn [nth_error skipn].
    apply cut_iff in Hc. rewrite Hc. apply ws_words_iff in Hr, Ht. subst rcols tcols.
    apply Hdev. exists pss. split; [exact HF|]. apply dict_of_fun, Hd.
Qed.
