From Verif Require Import Base StrFacts LineSpec LineFacts AssemblySpec Num Process Service Ini IniSpec IniFacts.

(** ** effects of settings and headers *)
Definition run_set (s : ist) (e : str * list str) : ist := set_cur (od_set (fst e) (snd e)) (set_opt (Some (fst e)) s).
Definition run_block (s : ist) (b : str * list (str * list str)) : ist := fold_left run_set (snd b) (enter (fst b) s).
Definition live (s : ist) : Prop :=
  match n_place s with PNowhere => False | PDefaults => True | PSection n => od_get n (n_sections s) <> None end.
Lemma set_cur_place f s : n_place (set_cur f s) = n_place s.
Proof. unfold set_cur. destruct (n_place s) eqn:E; cbn; try (rewrite E; reflexivity); [reflexivity|]. destruct (od_get _ _); cbn; [reflexivity|exact E]. Qed.
Lemma set_cur_opt f s : n_opt (set_cur f s) = n_opt s.
Proof. unfold set_cur. destruct (n_place s); cbn; try reflexivity. destruct (od_get _ _); reflexivity. Qed.
Lemma set_cur_errors f s : n_errors (set_cur f s) = n_errors s.
Proof. unfold set_cur. destruct (n_place s); cbn; try reflexivity. destruct (od_get _ _); reflexivity. Qed.
Lemma set_cur_live f s : live s -> live (set_cur f s).
Proof.
  unfold live. rewrite set_cur_place. unfold set_cur. destruct (n_place s); auto. destruct (od_get name (n_sections s)) eqn:E; [|contradiction].
  intros _. cbn. rewrite od_get_set, str_eqb_refl. discriminate.
Qed.
Lemma set_opt_live o s : live s -> live (set_opt o s). Proof. exact id. Qed.
Lemma run_set_live s e : live s -> live (run_set s e).
Proof. intros H. apply set_cur_live, set_opt_live, H. Qed.
Lemma run_sets_live es : forall s, live s -> live (fold_left run_set es s).
Proof. induction es; intros s H; [exact H|]. cbn. apply IHes, run_set_live, H. Qed.
Lemma run_set_opt s e : n_opt (run_set s e) = Some (fst e).
Proof. unfold run_set. rewrite set_cur_opt. reflexivity. Qed.
Lemma run_set_errors s e : n_errors (run_set s e) = n_errors s.
Proof. unfold run_set. rewrite set_cur_errors. reflexivity. Qed.
Lemma run_sets_errors es : forall s, n_errors (fold_left run_set es s) = n_errors s.
Proof. induction es; intros s; [reflexivity|]. cbn. rewrite IHes. apply run_set_errors. Qed.
Lemma enter_live n s : live (enter n s).
Proof.
  unfold enter, live. destruct (od_get n (n_sections s)) eqn:E; cbn; [congruence|]. destruct (str_eqb n (B "DEFAULT")); cbn; [exact I|].
  rewrite od_get_set, str_eqb_refl. discriminate.
Qed.
Lemma enter_errors n s : n_errors (enter n s) = n_errors s.
Proof. unfold enter. destruct (od_get n (n_sections s)); [reflexivity|]. destruct (str_eqb n _); reflexivity. Qed.
Lemma enter_opt n s : n_opt (enter n s) = None.
Proof. unfold enter. destruct (od_get n (n_sections s)); [reflexivity|]. destruct (str_eqb n _); reflexivity. Qed.
Lemma live_place s : live s -> n_place s <> PNowhere.
Proof. unfold live. destruct (n_place s); congruence || contradiction || discriminate. Qed.
Lemma append_run_set s o vs v : live s -> append_value v (run_set s (o, vs)) = run_set s (o, vs ++ [v]).
Proof.
  unfold live, append_value. rewrite run_set_opt. cbn [fst]. unfold run_set, set_cur. cbn [fst snd set_opt n_place n_defaults n_sections n_opt n_errors].
  destruct (n_place s) eqn:P; [contradiction|..]; cbn.
  - rewrite od_get_set, str_eqb_refl, od_set_set. reflexivity.
  - intros H. destruct (od_get name (n_sections s)) as [d|] eqn:E; [|contradiction]. cbn. rewrite od_get_set, str_eqb_refl. cbn.
    rewrite od_get_set, str_eqb_refl, od_set_set, od_set_set. reflexivity.
Qed.

(** ** what the lines do *)
Lemma setting_name l o v : setting l o v -> o <> [].
Proof. intros (name & sp & sep & r & _ & _ & _ & Hn & _ & _ & Hd & _) ->. inversion Hd; subst. contradiction. Qed.
Lemma setting_head l o v : setting l o v -> match l with c :: _ => is_space c = false | [] => False end.
Proof.
  intros (name & sp & sep & r & -> & _ & _ & Hn & Ht & _). apply trimmed_str_iff in Ht as [Ht _]. destruct name; [contradiction|]. exact Ht.
Qed.
Lemma header_head l n : header l n -> match l with c :: _ => is_space c = false | [] => False end.
Proof. intros (r & -> & _). reflexivity. Qed.
Lemma not_skipped l : ~ ignored l -> skipped l = false.
Proof. intros H. apply not_true_is_false. intros E. apply H, skipped_iff, E. Qed.
Lemma not_header l : (forall n, ~ header l n) -> match_section l = None.
Proof. intros H. destruct (match_section l) eqn:E; [|reflexivity]. exfalso. eapply H, header_iff, E. Qed.
Lemma not_continued l s : match l with c :: _ => is_space c = false | [] => False end -> continued l s = false.
Proof. unfold continued. destruct l; [easy|]. intros ->. reflexivity. Qed.
Lemma read_header l n ls i s : ~ ignored l -> header l n -> read_lines (l :: ls) i s = read_lines ls (S i) (enter n s).
Proof. intros H1 H2. cbn [read_lines]. rewrite (not_skipped _ H1), (not_continued _ _ (header_head _ _ H2)). apply header_iff in H2 as ->. reflexivity. Qed.
Lemma read_setting l o v ls i s : ~ In c_nl l -> ~ ignored l -> (forall n, ~ header l n) -> setting l o v -> live s ->
  read_lines (l :: ls) i s = read_lines ls (S i) (run_set s (o, [v])).
Proof.
  intros Hn H1 H2 H3 Hl. cbn [read_lines]. rewrite (not_skipped _ H1), (not_continued _ _ (setting_head _ _ _ H3)), (not_header _ H2).
  apply setting_iff in H3 as (name & w & -> & -> & ->); [|exact Hn]. apply live_place in Hl. destruct (n_place s); [contradiction|reflexivity..].
Qed.
Lemma read_further l v ls i s o vs : ~ ignored l -> further l v -> live s -> o <> [] ->
  read_lines (l :: ls) i (run_set s (o, vs)) = read_lines ls (S i) (run_set s (o, vs ++ [v])).
Proof.
  intros H1 [(c & l' & -> & Hc) H3] Hl Ho. cbn [read_lines]. rewrite (not_skipped _ H1).
  assert (Hk : continued (c :: l') (run_set s (o, vs)) = true).
  { unfold continued. apply is_space_iff in Hc. rewrite Hc, run_set_opt. cbn [fst]. pose proof (live_place _ (run_set_live s (o, vs) Hl)) as Hp. destruct (n_place _); [contradiction|..]; destruct o; contradiction || reflexivity. }
  rewrite Hk. apply stripped_strip in H3. rewrite H3, append_run_set by exact Hl. reflexivity.
Qed.
Definition plain (l : str) : Prop := ~ In c_nl l /\ ~ ignored l.
Lemma read_furthers cs vs : Forall2 further cs vs -> Forall plain cs -> forall ls i s o us, live s -> o <> [] ->
  read_lines (cs ++ ls) i (run_set s (o, us)) = read_lines ls (length cs + i) (run_set s (o, us ++ vs)).
Proof.
  induction 1 as [|c v cs vs H _ IH]; intros Hp ls i s o us Hl Ho; [rewrite app_nil_r; reflexivity|]. apply Forall_cons in Hp as [[_ Hc] Hp].
  cbn [app]. rewrite (read_further _ v) by assumption. rewrite IH by assumption. rewrite <- app_assoc. cbn [app length]. f_equal. lia.
Qed.
Lemma read_settings ls es : settings ls es -> Forall plain ls -> forall ls' i s, live s ->
  read_lines (ls ++ ls') i s = read_lines ls' (length ls + i) (fold_left run_set es s).
Proof.
  induction 1 as [|l o v cs vs ls es H1 H2 H3 _ IH]; intros Hp ls' i s Hl; [reflexivity|].
  apply Forall_cons in Hp as [[Hn Hc] Hp]. apply Forall_app in Hp as [Hp1 Hp2]. cbn [app]. rewrite (read_setting _ o v) by assumption.
  rewrite <- app_assoc, (read_furthers _ vs) by (assumption || eapply setting_name, H1). rewrite IH; [|exact Hp2|apply run_set_live, Hl].
  cbn [fold_left app length]. f_equal. rewrite app_length. lia.
Qed.
Lemma read_blocks ls bs : blocks ls bs -> Forall plain ls -> forall i s,
  read_lines ls i s = inr (fold_left run_block bs s).
Proof.
  induction 1 as [|l n ls es ss bs H1 H2 _ IH]; intros Hp i s; [reflexivity|].
  apply Forall_cons in Hp as [[Hn Hc] Hp]. apply Forall_app in Hp as [Hp1 Hp2]. rewrite (read_header _ n) by assumption.
  rewrite (read_settings _ es) by (assumption || apply enter_live). rewrite IH by exact Hp2. reflexivity.
Qed.

(** lines that are ignored; numbers *)
Lemma errors_grow ls : forall i s s', read_lines ls i s = inr s' -> exists e, n_errors s' = n_errors s ++ e.
Proof.
  induction ls as [|l ls IH]; intros i s s' H; cbn [read_lines] in H.
  - injection H as <-. exists []. rewrite app_nil_r. reflexivity.
  - destruct (skipped l); [eauto|]. destruct (continued l s).
    { apply IH in H as [e ->]. exists e. f_equal. unfold append_value. destruct (n_opt s); [apply set_cur_errors|reflexivity]. }
    destruct (match_section l). { apply IH in H as [e ->]. exists e. rewrite enter_errors. reflexivity. }
    destruct (n_place s); [discriminate|..]; destruct (match_option l) as [[nm w]|].
    all: apply IH in H as [e ->]; cbn [n_errors].
    all: try (exists e; rewrite set_cur_errors; reflexivity). all: rewrite <- app_assoc; eauto.
Qed.
Lemma renumber ls : forall i j s s', read_lines ls i s = inr s' -> n_errors s' = [] -> read_lines ls j s = inr s'.
Proof.
  induction ls as [|l ls IH]; intros i j s s' H He; cbn [read_lines] in *; [exact H|].
  destruct (skipped l); [eauto|]. destruct (continued l s); [eauto|]. destruct (match_section l); [eauto|].
  destruct (n_place s); [discriminate|..]; destruct (match_option l) as [[nm w]|]; eauto.
  all: apply errors_grow in H as [e H]; cbn in H; rewrite He in H; destruct (n_errors s); discriminate.
Qed.
Lemma read_significant ls ss : significant ls ss -> forall i s s', read_lines ss i s = inr s' -> n_errors s' = [] -> read_lines ls i s = inr s'.
Proof.
  induction 1 as [|l ls ss Hi _ IH|l ls ss Hi _ IH]; intros i s s' H He; [exact H|..].
  - cbn [read_lines]. apply skipped_iff in Hi as ->. apply IH; [|exact He]. eapply renumber; eassumption.
  - cbn [read_lines] in *. rewrite (not_skipped _ Hi) in *. destruct (continued l s); [auto|]. destruct (match_section l); [auto|].
    destruct (n_place s); [discriminate|..]; destruct (match_option l) as [[nm w]|]; auto.
Qed.
Lemma significant_plain ls ss : significant ls ss -> Forall (fun l => ~ In c_nl l) ls -> Forall plain ss.
Proof. induction 1; intros Hp; [constructor|..]; apply Forall_cons in Hp as [H1 H2]; auto. constructor; [split; assumption|auto]. Qed.
Lemma significant_total ls : exists ss, significant ls ss.
Proof.
  induction ls as [|l ls [ss IH]]; [exists []; constructor|]. destruct (skipped l) eqn:E.
  - exists ss. apply sg_skip; [apply skipped_iff, E|exact IH].
  - exists (l :: ss). apply sg_keep; [rewrite <- skipped_iff; congruence|exact IH].
Qed.
Lemma lines_in_split t ls : lines_in t ls <-> split_on c_nl t = ls.
Proof.
  unfold lines_in. change (B "
") with [c_nl]. split.
  - intros (H1 & -> & H2). apply split_on_join; assumption.
  - intros <-. split; [apply split_on_nonempty|]. split; [symmetry; apply join_split_on|apply split_on_no_sep].
Qed.

(** ** what the state holds *)
Lemma fold_set_defaults es : forall s, n_place s = PDefaults -> fold_left run_set es s =
  Ist (od_update (n_defaults s) es) (n_sections s) PDefaults (match last es with Some e => Some (fst e) | None => n_opt s end) (n_errors s).
Proof.
  induction es as [|e es IH] using rev_ind; intros s H.
  - destruct s; cbn in *; subst; reflexivity.
  - rewrite fold_left_app, IH by exact H. cbn [fold_left]. unfold run_set, set_cur. cbn. rewrite od_update_app, last_snoc. reflexivity.
Qed.
Lemma fold_set_section es n : forall s d, n_place s = PSection n -> od_get n (n_sections s) = Some d -> fold_left run_set es s =
  Ist (n_defaults s) (od_set n (od_update d es) (n_sections s)) (PSection n) (match last es with Some e => Some (fst e) | None => n_opt s end) (n_errors s).
Proof.
  induction es as [|e es IH] using rev_ind; intros s d H Hd.
  - cbn. rewrite od_set_same by exact Hd. destruct s; cbn in *; subst; reflexivity.
  - rewrite fold_left_app, (IH _ d) by assumption. cbn [fold_left]. unfold run_set, set_cur. cbn. rewrite od_get_set, str_eqb_refl, od_set_set, od_update_app, last_snoc. reflexivity.
Qed.
Definition fresh (n : str) : odict (list str) := [(B "__name__", [n])].
Lemma run_block_state s n es : od_get (B "DEFAULT") (n_sections s) = None ->
  (n = B "DEFAULT" -> n_defaults (run_block s (n, es)) = od_update (n_defaults s) es /\ n_sections (run_block s (n, es)) = n_sections s) /\
  (n <> B "DEFAULT" -> n_defaults (run_block s (n, es)) = n_defaults s /\
     n_sections (run_block s (n, es)) = od_set n (od_update (match od_get n (n_sections s) with Some d => d | None => fresh n end) es) (n_sections s)).
Proof.
  intros Hd. unfold run_block, enter. cbn [fst snd]. split; intros Hn.
  - subst n. rewrite Hd, str_eqb_refl. rewrite fold_set_defaults by reflexivity. split; reflexivity.
  - destruct (od_get n (n_sections s)) as [d|] eqn:E.
    + rewrite (fold_set_section _ n _ d); [split; reflexivity|reflexivity|exact E].
    + apply str_eqb_neq in Hn. rewrite Hn. rewrite (fold_set_section _ n _ (fresh n)); [|reflexivity|cbn; rewrite od_get_set, str_eqb_refl; reflexivity].
      cbn. rewrite od_set_set. split; reflexivity.
Qed.
Lemma settings_of_cons n b bs : settings_of n (b :: bs) = (if str_eqb n (fst b) then snd b else []) ++ settings_of n bs.
Proof.
  unfold settings_of. destruct (str_eqb n (fst b)) eqn:E.
  - apply str_eqb_eq in E. rewrite filter_cons_True by auto. reflexivity.
  - apply str_eqb_neq in E. rewrite filter_cons_False by auto. reflexivity.
Qed.
Lemma run_blocks_state bs : forall s, od_get (B "DEFAULT") (n_sections s) = None ->
  let s' := fold_left run_block bs s in
  n_defaults s' = od_update (n_defaults s) (settings_of (B "DEFAULT") bs) /\
  map fst (n_sections s') = fold_left add_key (filter (fun n => n <> B "DEFAULT") (map fst bs)) (map fst (n_sections s)) /\
  (forall n, n <> B "DEFAULT" -> od_get n (n_sections s') =
     match od_get n (n_sections s) with
     | Some d => Some (od_update d (settings_of n bs))
     | None => if existsb (str_eqb n) (map fst bs) then Some (od_update (fresh n) (settings_of n bs)) else None
     end).
Proof.
  induction bs as [|[n es] bs IH]; intros s Hd.
  - cbn. split; [reflexivity|]. split; [reflexivity|]. intros n Hn. destruct (od_get n (n_sections s)); reflexivity.
  - destruct (run_block_state s n es Hd) as [H1 H2]. cbn [fold_left]. destruct (decide (n = B "DEFAULT")) as [->|Hn].
    + destruct (H1 eq_refl) as [E1 E2]. destruct (IH (run_block s (B "DEFAULT", es))) as (K1 & K2 & K3); [rewrite E2; exact Hd|].
      split; [|split].
      * rewrite K1, E1, settings_of_cons. cbn [fst snd]. rewrite str_eqb_refl, od_update_app. reflexivity.
      * rewrite K2, E2. cbn [map fst]. rewrite filter_cons_False by tauto. reflexivity.
      * intros m Hm. rewrite K3, E2, settings_of_cons by exact Hm. cbn [fst snd map existsb]. apply str_eqb_neq in Hm. rewrite Hm. reflexivity.
    + destruct (H2 Hn) as [E1 E2]. destruct (IH (run_block s (n, es))) as (K1 & K2 & K3).
      { rewrite E2, od_get_set. destruct (str_eqb (B "DEFAULT") n) eqn:E; [apply str_eqb_eq in E; congruence|exact Hd]. }
      split; [|split].
      * rewrite K1, E1, settings_of_cons. cbn [fst snd]. destruct (str_eqb (B "DEFAULT") n) eqn:E; [apply str_eqb_eq in E; congruence|reflexivity].
      * rewrite K2, E2, od_set_keys. cbn [map fst]. rewrite filter_cons_True by exact Hn. reflexivity.
      * intros m Hm. rewrite K3, E2, od_get_set, settings_of_cons by exact Hm. cbn [fst snd map existsb]. destruct (str_eqb m n) eqn:E.
        { apply str_eqb_eq in E as ->. cbn [orb]. destruct (od_get n (n_sections s)); rewrite od_update_app; reflexivity. }
        { reflexivity. }
Qed.

(** ** the sections that come out *)
Lemma filter_negb (x : str) {V} (d : odict V) : List.filter (fun kv => negb (str_eqb (fst kv) x)) d = filter (fun kv => fst kv <> x) d.
Proof.
  induction d as [|[k v] d IH]; [reflexivity|]. cbn [List.filter fst]. destruct (str_eqb k x) eqn:E.
  - apply str_eqb_eq in E. rewrite filter_cons_False by (cbn; tauto). exact IH.
  - apply str_eqb_neq in E. rewrite filter_cons_True by exact E. f_equal. exact IH.
Qed.
Lemma items_of_contents D n S : items_of (od_update [] D) (od_update (fresh n) S) = contents (D ++ S).
Proof.
  unfold items_of, contents. rewrite filter_negb. set (d := od_update (od_update [] D) (od_update (fresh n) S)).
  assert (Nd : NoDup (map fst d)) by (apply od_update_NoDup, od_update_NoDup, NoDup_nil_2).
  assert (N2 : NoDup (map fst (od_update (fresh n) S))) by (apply od_update_NoDup, NoDup_singleton).
  assert (Kd : map fst d = firsts (map fst D ++ B "__name__" :: map fst S)).
  { unfold d. rewrite !od_update_keys. cbn [map fst fresh].
    change (fold_left add_key (map fst S) [B "__name__"]) with (fold_left add_key (B "__name__" :: map fst S) []).
    rewrite <- !firsts_keys, add_keys_firsts, firsts_firsts, firsts_app. f_equal. apply list_filter_iff. intros x. rewrite firsts_elem. reflexivity. }
  assert (Gd : forall k, k <> B "__name__" -> od_get k d = last_of k (D ++ S)).
  { intros k Hk. unfold d. rewrite od_update_get, last_of_get by exact N2. rewrite !od_update_get, last_of_app. cbn [od_get fresh].
    apply str_eqb_neq in Hk. rewrite Hk. destruct (last_of k S); [reflexivity|]. destruct (last_of k D); reflexivity. }
  transitivity (map (fun o => (o, final o (D ++ S))) (filter (fun o => o <> B "__name__") (map fst d))).
  - clear Kd. assert (H : forall k v, (k, v) ∈ d -> od_get k d = Some v).
    { clear - Nd. induction d as [|[x u] d IH]; intros k v H; [apply elem_of_nil in H; contradiction|]. cbn [map fst] in Nd. apply NoDup_cons in Nd as [Hx Nd].
      cbn. apply elem_of_cons in H as [[= -> ->]|H]; [rewrite str_eqb_refl; reflexivity|]. destruct (str_eqb k x) eqn:E; [|auto]. apply str_eqb_eq in E as ->. exfalso. apply Hx. apply elem_of_list_fmap. exists (x, v). auto. }
    assert (H2 : forall k v, (k, v) ∈ d -> k <> B "__name__" -> join [c_nl] v = final k (D ++ S)).
    { intros k v Hin Hk. apply H in Hin. rewrite Gd in Hin by exact Hk. unfold last_of in Hin. unfold final. destruct (last (filter _ (D ++ S))); [|discriminate]. injection Hin as <-. reflexivity. }
    clear -H2. induction d as [|[x u] d IH]; [reflexivity|]. cbn [map fst]. destruct (decide (x = B "__name__")) as [->|Hx].
    + rewrite filter_cons_False by (cbn; tauto). rewrite filter_cons_False by tauto. apply IH. intros k v Hk. apply H2. right. exact Hk.
    + rewrite filter_cons_True by exact Hx. rewrite filter_cons_True by exact Hx. cbn [map fst snd]. rewrite (H2 x u) by (left || exact Hx). f_equal. apply IH. intros k v Hk. apply H2. right. exact Hk.
  - f_equal. rewrite Kd, map_app, !firsts_filter. f_equal. rewrite !filter_app. rewrite filter_cons_False by tauto. reflexivity.
Qed.
Lemma sections_meaning bs : let s := fold_left run_block bs ist0 in
  map (fun nd => (fst nd, items_of (n_defaults s) (snd nd))) (n_sections s) = meaning bs.
Proof.
  destruct (run_blocks_state bs ist0 eq_refl) as (K1 & K2 & K3). cbn zeta in *. set (s := fold_left run_block bs ist0) in *. clearbody s. cbn in K1, K2, K3.
  rewrite <- firsts_keys, <- firsts_filter in K2. unfold meaning. rewrite <- K2. rewrite K1. clear K1.
  assert (Nd : NoDup (map fst (n_sections s))) by (rewrite K2; apply NoDup_filter, firsts_NoDup).
  assert (H : forall n d, (n, d) ∈ n_sections s -> d = od_update (fresh n) (settings_of n bs)).
  { intros n d Hin. assert (Hg : od_get n (n_sections s) = Some d).
    { clear - Nd Hin. induction (n_sections s) as [|[x u] l IH]; [apply elem_of_nil in Hin; contradiction|]. cbn [map fst] in Nd. apply NoDup_cons in Nd as [Hx Nd].
      cbn. apply elem_of_cons in Hin as [[= -> ->]|H]; [rewrite str_eqb_refl; reflexivity|]. destruct (str_eqb n x) eqn:E; [|auto]. apply str_eqb_eq in E as ->. exfalso. apply Hx. apply elem_of_list_fmap. exists (x, d). auto. }
    assert (Hn : n <> B "DEFAULT"). { assert (Hk : n ∈ map fst (n_sections s)) by (apply elem_of_list_fmap; exists (n, d); auto). rewrite K2 in Hk. apply elem_of_list_filter in Hk as [Hk _]. exact Hk. }
    rewrite K3 in Hg by exact Hn. destruct (existsb _ _); [injection Hg as <-; reflexivity|discriminate]. }
  clear K2 K3 Nd. induction (n_sections s) as [|[n d] l IH]; [reflexivity|]. cbn [map fst snd]. rewrite (H n d) by left. rewrite items_of_contents. f_equal. apply IH. intros m e Hin. apply H. right. exact Hin.
Qed.
Lemma run_blocks_errors bs : forall s, n_errors (fold_left run_block bs s) = n_errors s.
Proof. induction bs as [|[n es] bs IH]; intros s; [reflexivity|]. cbn [fold_left]. rewrite IH. unfold run_block. rewrite run_sets_errors. apply enter_errors. Qed.
Lemma says_read t bs : says t bs -> read_config t = inr (meaning bs).
Proof.
  intros (ls & ss & Hl & Hs & Hb). pose proof Hl as (_ & _ & Hn). apply lines_in_split in Hl. unfold read_config. rewrite readlines_split, Hl.
  assert (R : read_lines ls 1 ist0 = inr (fold_left run_block bs ist0)).
  { apply (read_significant _ _ Hs). { apply read_blocks; [exact Hb|]. eapply significant_plain; eassumption. } apply run_blocks_errors. }
  rewrite R, run_blocks_errors. cbn [n_errors ist0]. f_equal. apply sections_meaning.
Qed.

(** ** every text that is read says something *)
Definition in_option (s : ist) : Prop := exists o, n_opt s = Some o /\ o <> [].
Lemma continued_iff l s : live s -> (continued l s = true <-> (exists c l', l = c :: l' /\ in_ws c) /\ in_option s).
Proof.
  intros Hl. apply live_place in Hl. unfold continued, in_option. rewrite !andb_true_iff. split.
  - intros [[H1 _] H2]. split; [destruct l as [|c l]; [discriminate|]; exists c, l; split; [reflexivity|apply is_space_iff, H1]|].
    destruct (n_opt s) as [o|]; [|discriminate]. exists o. split; [reflexivity|intros ->; discriminate].
  - intros [(c & l' & -> & H1) (o & H2 & H3)]. rewrite H2. apply is_space_iff in H1. destruct (n_place s); [contradiction|..]; destruct o; try contradiction; auto.
Qed.
Lemma append_value_live v s : live s -> live (append_value v s).
Proof. unfold append_value. destruct (n_opt s); [apply set_cur_live|exact id]. Qed.
Lemma append_value_opt v s : n_opt (append_value v s) = n_opt s.
Proof. unfold append_value. destruct (n_opt s) eqn:E; [rewrite set_cur_opt; exact E|exact E]. Qed.
Lemma option_setting l name w : ~ In c_nl l -> match_option l = Some (name, w) -> setting l (map to_lower (rstrip name)) (option_text w).
Proof. intros Hn H. apply setting_iff; [exact Hn|]. eauto. Qed.
Lemma read_parts ls : Forall (fun l => ~ In c_nl l) ls -> forall i s s', live s -> read_lines ls i s = inr s' -> n_errors s' = [] ->
  exists cs vs l1 es l2 bs, significant ls (cs ++ l1 ++ l2) /\ Forall2 further cs vs /\ (cs <> [] -> in_option s) /\ settings l1 es /\ blocks l2 bs.
Proof.
  induction 1 as [|l ls Hn _ IH]; intros i s s' Hl H He; cbn [read_lines] in H.
  - exists [], [], [], [], [], []. repeat (split; [constructor|]). split; [intros; contradiction|]. split; constructor.
  - destruct (skipped l) eqn:Sk.
    { destruct (IH _ _ _ Hl H He) as (cs & vs & l1 & es & l2 & bs & H1 & H2). exists cs, vs, l1, es, l2, bs. split; [apply sg_skip; [apply skipped_iff, Sk|exact H1]|exact H2]. }
    assert (Hi : ~ ignored l) by (rewrite <- skipped_iff; congruence).
    destruct (continued l s) eqn:Ct.
    { apply continued_iff in Ct as [C1 C2]; [|exact Hl]. destruct (IH _ _ _ (append_value_live (strip l) _ Hl) H He) as (cs & vs & l1 & es & l2 & bs & H1 & H2 & _ & H4).
      exists (l :: cs), (strip l :: vs), l1, es, l2, bs. split; [apply sg_keep; assumption|]. split; [constructor; [split; [exact C1|apply stripped_strip; reflexivity]|exact H2]|]. split; [intros; exact C2|exact H4]. }
    destruct (match_section l) as [n|] eqn:Sc.
    { destruct (IH _ _ _ (enter_live n s) H He) as (cs & vs & l1 & es & l2 & bs & H1 & H2 & H3 & H4 & H5).
      assert (cs = []) as ->. { destruct cs; [reflexivity|]. destruct H3 as (o & H3 & _); [discriminate|]. rewrite enter_opt in H3. discriminate. }
      exists [], [], [], [], (l :: l1 ++ l2), ((n, es) :: bs). split; [apply sg_keep; assumption|]. split; [constructor|]. split; [intros; contradiction|]. split; [constructor|]. constructor; [apply header_iff, Sc|assumption..]. }
    assert (Hh : forall n, ~ header l n) by (intros n Hx; apply header_iff in Hx; congruence).
    assert (Hx : exists name w, match_option l = Some (name, w) /\ read_lines ls (S i) (run_set s (map to_lower (rstrip name), [option_text w])) = inr s').
    { destruct (n_place s) as [| |sn]; [discriminate|..]; destruct (match_option l) as [[name w]|]; try (exists name, w; split; [reflexivity|exact H]).
      all: apply errors_grow in H as [e H]; cbn in H; rewrite He in H; destruct (n_errors s); discriminate. }
    destruct Hx as (name & w & Hm & Hr). apply option_setting in Hm; [|exact Hn].
    destruct (IH _ _ _ (run_set_live _ _ Hl) Hr He) as (cs & vs & l1 & es & l2 & bs & H1 & H2 & H3 & H4 & H5).
    exists [], [], (l :: cs ++ l1), ((map to_lower (rstrip name), option_text w :: vs) :: es), l2, bs. split; [|split; [constructor|split; [intros; contradiction|split; [|exact H5]]]].
    { cbn [app]. apply sg_keep; [exact Hi|]. rewrite <- app_assoc. exact H1. }
    constructor; assumption.
Qed.
Lemma read_begin ls : Forall (fun l => ~ In c_nl l) ls -> forall i s', read_lines ls i ist0 = inr s' -> n_errors s' = [] ->
  exists ss bs, significant ls ss /\ blocks ss bs.
Proof.
  induction 1 as [|l ls Hn Hp IH]; intros i s' H He; cbn [read_lines] in H.
  - exists [], []. split; constructor.
  - destruct (skipped l) eqn:Sk.
    { destruct (IH _ _ H He) as (ss & bs & H1 & H2). exists ss, bs. split; [apply sg_skip; [apply skipped_iff, Sk|exact H1]|exact H2]. }
    assert (Hi : ~ ignored l) by (rewrite <- skipped_iff; congruence).
    replace (continued l ist0) with false in H by (unfold continued; cbn; rewrite andb_false_r; reflexivity).
    destruct (match_section l) as [n|] eqn:Sc; [|discriminate].
    destruct (read_parts _ Hp _ _ _ (enter_live n _) H He) as (cs & vs & l1 & es & l2 & bs & H1 & H2 & H3 & H4 & H5).
    assert (cs = []) as ->. { destruct cs; [reflexivity|]. destruct H3 as (o & H3 & _); [discriminate|]. rewrite enter_opt in H3. discriminate. }
    exists (l :: l1 ++ l2), ((n, es) :: bs). split; [apply sg_keep; assumption|]. constructor; [apply header_iff, Sc|assumption..].
Qed.
Theorem read_iff t secs : read_config t = inr secs <-> exists bs, says t bs /\ secs = meaning bs.
Proof.
  split.
  - intros H. assert (Hx : exists bs, says t bs).
    { unfold read_config in H. rewrite readlines_split in H. destruct (read_lines _ _ _) as [|s'] eqn:R; [discriminate|]. destruct (n_errors s') eqn:He; [|discriminate].
      pose proof (proj2 (lines_in_split t _) eq_refl) as Hl. destruct Hl as (Hl1 & Hl2 & Hl3).
      destruct (read_begin _ Hl3 _ _ R He) as (ss & bs & H1 & H2). exists bs, (split_on c_nl t), ss. split; [exact (conj Hl1 (conj Hl2 Hl3))|]. auto. }
    destruct Hx as [bs Hb]. exists bs. split; [exact Hb|]. rewrite (says_read _ _ Hb) in H. congruence.
  - intros (bs & H & ->). apply says_read, H.
Qed.

(** ** a text says one thing *)
Lemma header_fun l n m : header l n -> header l m -> n = m.
Proof. rewrite <- !header_iff. congruence. Qed.
Lemma setting_fun l o v o' v' : ~ In c_nl l -> setting l o v -> setting l o' v' -> o = o' /\ v = v'.
Proof. intros Hn. rewrite <- !setting_iff by exact Hn. intros (a & b & E & -> & ->) (c & d & E' & -> & ->). rewrite E in E'. injection E' as -> ->. auto. Qed.
Lemma further_fun l v w : further l v -> further l w -> v = w.
Proof. intros [_ H] [_ H']. apply stripped_strip in H, H'. congruence. Qed.
Lemma further_head l v : further l v -> match l with c :: _ => is_space c = true | [] => False end.
Proof. intros [(c & l' & -> & H) _]. apply is_space_iff, H. Qed.
(** lists of lines that begin otherwise *)
Definition starts (P : str -> Prop) (ls : list str) : Prop := match ls with [] => True | l :: _ => P l end.
Definition at_margin (l : str) : Prop := match l with c :: _ => is_space c = false | [] => False end.
Lemma margin_further l v : at_margin l -> further l v -> False.
Proof. intros H1 H2. apply further_head in H2. unfold at_margin in H1. destruct l; [exact H1|congruence]. Qed.
Lemma furthers_fun cs vs : Forall2 further cs vs -> forall cs' vs' X X', Forall2 further cs' vs' -> starts at_margin X -> starts at_margin X' -> cs ++ X = cs' ++ X' -> vs = vs' /\ X = X'.
Proof.
  induction 1 as [|c v cs vs H _ IH]; intros cs' vs' X X' H' HX HX' E; destruct H' as [|c' v' cs' vs' H1 H2]; cbn [app] in E.
  - auto.
  - subst X. exfalso. eapply margin_further; [exact HX|exact H1].
  - subst X'. exfalso. eapply margin_further; [exact HX'|exact H].
  - injection E as -> E. destruct (IH _ _ _ _ H2 HX HX' E) as [-> ->]. rewrite (further_fun _ _ _ H H1). auto.
Qed.
Lemma settings_margin ls es X : settings ls es -> starts at_margin X -> starts at_margin (ls ++ X).
Proof. intros H HX. destruct H as [|l o v cs vs ls es H _ _ _]; [exact HX|]. exact (setting_head _ _ _ H). Qed.
Definition is_header (l : str) : Prop := exists n, header l n.
Lemma header_margin X : starts is_header X -> starts at_margin X.
Proof. destruct X as [|l X]; [easy|]. intros [n H]. exact (header_head _ _ H). Qed.
Lemma settings_fun ls es : settings ls es -> forall ls' es' X X', Forall (fun l => ~ In c_nl l) (ls ++ X) -> settings ls' es' -> starts is_header X -> starts is_header X' -> ls ++ X = ls' ++ X' -> es = es' /\ X = X'.
Proof.
  induction 1 as [|l o v cs vs ls es H1 H2 H3 H4 IH]; intros ls' es' X X' Hn H' HX HX' E; destruct H' as [|l' o' v' cs' vs' ls' es' H1' H2' H3' H4']; cbn [app] in E.
  - auto.
  - subst X. destruct HX as [n HX]. exfalso. eapply H2', HX.
  - subst X'. destruct HX' as [n HX']. exfalso. eapply H2, HX'.
  - injection E as <- E. cbn [app] in Hn. apply Forall_cons in Hn as [Hl Hn]. rewrite <- !app_assoc in E. rewrite <- app_assoc in Hn. apply Forall_app in Hn as [_ Hn].
    destruct (setting_fun _ _ _ _ _ Hl H1 H1') as [-> ->].
    destruct (furthers_fun _ _ H3 _ _ _ _ H3' (settings_margin _ _ _ H4 (header_margin _ HX)) (settings_margin _ _ _ H4' (header_margin _ HX')) E) as [-> E'].
    destruct (IH _ _ _ _ Hn H4' HX HX' E') as [-> ->]. auto.
Qed.
Lemma blocks_starts ls bs : blocks ls bs -> starts is_header ls.
Proof. intros H. destruct H; [exact I|]. eexists; eassumption. Qed.
Lemma blocks_fun ls bs : blocks ls bs -> Forall (fun l => ~ In c_nl l) ls -> forall bs', blocks ls bs' -> bs = bs'.
Proof.
  induction 1 as [|l n ls es ss bs H1 H2 H3 IH]; intros Hn bs' H'.
  - inversion H'. reflexivity.
  - remember (l :: ls ++ ss) as L eqn:EL. destruct H' as [|l' n' ls' es' ss' bs' H1' H2' H3']; [discriminate|]. injection EL as -> E.
    apply Forall_cons in Hn as [_ Hn]. rewrite E in Hn. rewrite (header_fun _ _ _ H1 H1').
    destruct (settings_fun _ _ H2 _ _ _ _ Hn H2' (blocks_starts _ _ H3) (blocks_starts _ _ H3') (eq_sym E)) as [-> ->].
    apply Forall_app in Hn as [_ Hn]. rewrite (IH Hn _ H3'). reflexivity.
Qed.
Lemma significant_fun ls ss : significant ls ss -> forall ss', significant ls ss' -> ss = ss'.
Proof. induction 1 as [|l ls ss Hi _ IH|l ls ss Hi _ IH]; intros ss' H'; inversion H'; subst; try contradiction; [reflexivity|auto|f_equal; auto]. Qed.
Theorem says_fun t bs bs' : says t bs -> says t bs' -> bs = bs'.
Proof.
  intros (ls & ss & L & S & H) (ls' & ss' & L' & S' & H'). pose proof L as (_ & _ & Hn). apply lines_in_split in L, L'. rewrite L in L'. subst ls'.
  rewrite <- (significant_fun _ _ S _ S') in H'. eapply blocks_fun; [exact H| |exact H']. eapply Forall_impl; [exact (significant_plain _ _ S Hn)|]. intros l [Hl _]. exact Hl.
Qed.
Lemma meaning_names bs secs : secs = meaning bs -> NoDup (map fst secs) /\ ~ In (B "DEFAULT") (map fst secs) /\
  forall n items, In (n, items) secs -> NoDup (map fst items) /\ ~ In (B "__name__") (map fst items).
Proof.
  intros ->. unfold meaning. rewrite map_map. cbn [fst]. rewrite map_id. split; [apply NoDup_filter, firsts_NoDup|]. split.
  - intros H. apply elem_of_list_In, elem_of_list_filter in H as [H _]. contradiction.
  - intros n items H. apply in_map_iff in H as (m & [= <- <-] & _). unfold contents. rewrite map_map. cbn [fst]. rewrite map_id. split; [apply NoDup_filter, firsts_NoDup|].
    intros H. apply elem_of_list_In, elem_of_list_filter in H as [H _]. contradiction.
Qed.
