From Verif Require Import Base StrFacts LineSpec LineFacts AssemblySpec AssemblyFacts Num Process Service Ini IniSpec.

(** ** the newline at the end of a line *)
Lemma nl_space : is_space c_nl = true. Proof. reflexivity. Qed.
Lemma strip_nl l : strip (l ++ [c_nl]) = strip l.
Proof.
  unfold strip. assert (E : lstrip (l ++ [c_nl]) = lstrip l ++ [c_nl] \/ (lstrip (l ++ [c_nl]) = [] /\ lstrip l = [])).
  { induction l as [|c l IH]; [right; split; reflexivity|]. cbn [app lstrip]. destruct (is_space c); [exact IH|left; reflexivity]. }
  destruct E as [->|[-> ->]]; [|reflexivity]. apply rstrip_app. repeat constructor.
Qed.
Lemma span_nl p l : p c_nl = false -> fst (span p (l ++ [c_nl])) = fst (span p l).
Proof.
  intros H. induction l as [|c l IH]; [cbn [app span]; rewrite H; reflexivity|]. cbn [app span]. destruct (p c); [|reflexivity].
  destruct (span p (l ++ [c_nl])), (span p l). cbn in *. congruence.
Qed.
Lemma skipped_nl l : skipped (l ++ [c_nl]) = skipped l.
Proof.
  unfold skipped. rewrite strip_nl. destruct l as [|c l]; [reflexivity|]. cbn [app]. f_equal. f_equal. f_equal. f_equal. f_equal.
  change (c :: l ++ [c_nl]) with ((c :: l) ++ [c_nl]). generalize (c :: l). intros s.
  assert (E : lstrip (s ++ [c_nl]) = lstrip s ++ [c_nl] \/ (lstrip (s ++ [c_nl]) = [] /\ lstrip s = [])).
  { induction s as [|x s IH]; [right; split; reflexivity|]. cbn [app lstrip]. destruct (is_space x); [exact IH|left; reflexivity]. }
  destruct E as [->|[-> ->]]; [|reflexivity]. apply span_nl. reflexivity.
Qed.
Lemma match_section_nl l : match_section (l ++ [c_nl]) = match_section l.
Proof.
  destruct l as [|c l]; [reflexivity|]. cbn [app match_section]. destruct (eqc c "["); [|reflexivity].
  assert (H : (span (fun x => negb (eqc x "]")) (l ++ [c_nl])) = (let '(a, b) := span (fun x => negb (eqc x "]")) l in match b with [] => (a ++ [c_nl], []) | _ => (a, b ++ [c_nl]) end)).
  { induction l as [|x l IH]; [reflexivity|]. cbn [app span]. destruct (negb (eqc x "]")); [|reflexivity]. rewrite IH. destruct (span _ l) as [a [|y b]]; reflexivity. }
  rewrite H. destruct (span _ l) as [a [|y b]]; [|reflexivity]. cbn [nonempty]. rewrite !andb_false_r. reflexivity.
Qed.
Lemma span_none p s : fst (span p s) = s -> snd (span p s) = [].
Proof. intros H. destruct (span_spec p s) as [E _]. rewrite H in E. rewrite <- (app_nil_r s) in E at 1. apply app_inv_head in E. auto. Qed.
Lemma span_all p s : forallb p s = true -> span p s = (s, []).
Proof. induction s as [|c s IH]; [reflexivity|]. cbn. intros H. apply andb_true_iff in H as [-> H]. rewrite (IH H). reflexivity. Qed.
Lemma lstrip_sub s c : In c (lstrip s) -> In c s.
Proof. destruct (lstrip_spec s) as (l & E & _). intros H. rewrite E. apply in_or_app. auto. Qed.
Lemma match_option_nl l : ~ In c_nl l -> match_option (l ++ [c_nl]) = match_option l.
Proof.
  intros Hn. destruct l as [|c l]; [reflexivity|]. cbn [app match_option]. change (c :: l ++ [c_nl]) with ((c :: l) ++ [c_nl]).
  destruct (is_space c || separator c); [reflexivity|]. set (s := c :: l) in *.
  assert (H : (span (fun x => negb (separator x)) (s ++ [c_nl])) = (let '(a, b) := span (fun x => negb (separator x)) s in match b with [] => (a ++ [c_nl], []) | _ => (a, b ++ [c_nl]) end)).
  { clear. induction s as [|x q IH]; [reflexivity|]. cbn [app span]. destruct (negb (separator x)); [|reflexivity]. rewrite IH. destruct (span _ q) as [a [|y b]]; reflexivity. }
  rewrite H. destruct (span_spec (fun x => negb (separator x)) s) as [Es _]. destruct (span _ s) as [a [|y b]]; [reflexivity|]. cbn [app fst snd] in *.
  assert (Hb : ~ In c_nl b) by (intros Hin; apply Hn; rewrite Es; apply in_or_app; right; right; exact Hin).
  f_equal. f_equal.
  assert (E : lstrip (b ++ [c_nl]) = lstrip b ++ [c_nl] \/ (lstrip (b ++ [c_nl]) = [] /\ lstrip b = [])).
  { clear. induction b as [|x s IH]; [right; split; reflexivity|]. cbn [app lstrip]. destruct (is_space x); [exact IH|left; reflexivity]. }
  destruct E as [->|[-> ->]]; [|reflexivity]. rewrite span_nl by reflexivity. reflexivity.
Qed.
Lemma readlines_split t : forall i s, read_lines (readlines t) i s = read_lines (split_on c_nl t) i s.
Proof.
  assert (H : forall n t, (length t <= n)%nat -> forall i s, read_lines (readlines t) i s = read_lines (split_on c_nl t) i s).
  2:{ intros i s. apply (H (length t)). lia. }
  clear t. induction n as [|n IH]; intros t Hl i s; [destruct t; [reflexivity|cbn in Hl; lia]|].
  assert (D : (exists l t', t = l ++ c_nl :: t' /\ ~ In c_nl l) \/ ~ In c_nl t).
  { clear. induction t as [|c t IH]; [right; intros []|]. destruct (ascii_dec c c_nl) as [->|Hc]; [left; exists [], t; auto|].
    destruct IH as [(l & t' & -> & Hl)|H]; [left; exists (c :: l), t'; split; [reflexivity|]; intros [E|E]; [congruence|contradiction]|right; intros [E|E]; [congruence|contradiction]]. }
  destruct D as [(l & t' & -> & Hn)|Hn].
  - rewrite split_on_app by exact Hn.
    assert (R : readlines (l ++ c_nl :: t') = (l ++ [c_nl]) :: readlines t').
    { clear - Hn. induction l as [|c l IHl]; [reflexivity|]. cbn [app readlines]. assert (E : eqc c c_nl = false) by (apply not_true_is_false; intros E; apply eqc_eq in E; subst; apply Hn; left; reflexivity).
      rewrite E, IHl; [reflexivity|]. intros Hin. apply Hn. right. exact Hin. }
    rewrite R. cbn [read_lines]. rewrite skipped_nl, match_section_nl, match_option_nl, strip_nl by exact Hn.
    assert (IH' := IH t' ltac:(rewrite app_length in Hl; cbn in Hl; lia)).
    destruct (skipped l) eqn:Sk; [apply IH'|]. assert (Hc : continued (l ++ [c_nl]) s = continued l s) by (destruct l; [discriminate Sk|reflexivity]). rewrite Hc.
    destruct (continued l s); [apply IH'|]. destruct (match_section l); [apply IH'|]. destruct (n_place s); [reflexivity|..]; destruct (match_option l) as [[? ?]|]; apply IH'.
  - rewrite split_on_word by exact Hn. destruct t as [|c t]; [reflexivity|].
    assert (R : readlines (c :: t) = [c :: t]).
    { clear - Hn. revert c Hn. induction t as [|d t IHt]; intros c Hn.
      - cbn [readlines]. assert (E : eqc c c_nl = false) by (apply not_true_is_false; intros E; apply eqc_eq in E; subst; apply Hn; left; reflexivity). rewrite E. reflexivity.
      - change (readlines (c :: d :: t)) with (if eqc c c_nl then [c] :: readlines (d :: t) else match readlines (d :: t) with [] => [[c]] | l :: ls => (c :: l) :: ls end).
        assert (E : eqc c c_nl = false) by (apply not_true_is_false; intros E; apply eqc_eq in E; subst; apply Hn; left; reflexivity). rewrite E, IHt; [reflexivity|]. intros Hin. apply Hn. right. exact Hin. }
    rewrite R. reflexivity.
Qed.

(** ** lines *)
Lemma blank_iff l : blank l <-> strip l = [].
Proof.
  unfold blank. rewrite <- all_space_iff. split.
  - intros H. unfold strip. rewrite lstrip_all_space by exact H. reflexivity.
  - intros H. destruct (strip_spec l) as (a & b & E & Ha & Hb & _). rewrite H in E. rewrite E. apply Forall_app. auto.
Qed.
Lemma down_iff c d : down c d <-> to_lower c = d.
Proof.
  unfold down. split.
  - intros [[H ->]|(i & H1 & H2)].
    + pose proof (ascii_cases (fun c => has c uppers || eqc (to_lower c) c) ltac:(vm_compute; reflexivity) c) as K. cbn beta in K.
      apply orb_true_iff in K as [K|K]; [apply has_In in K; contradiction|apply eqc_eq, K].
    + do 26 (destruct i as [|i]; [cbn in H1, H2; injection H1 as <-; injection H2 as <-; reflexivity|]). discriminate H1.
  - intros <-. destruct (in_dec ascii_dec c uppers) as [H|H].
    + right. apply elem_of_list_In, elem_of_list_lookup in H as [i H1]. exists i. split; [exact H1|].
      do 26 (destruct i as [|i]; [cbn in H1; injection H1 as <-; reflexivity|]). discriminate H1.
    + left. split; [exact H|].
      pose proof (ascii_cases (fun c => has c uppers || eqc (to_lower c) c) ltac:(vm_compute; reflexivity) c) as K. cbn beta in K.
      apply orb_true_iff in K as [K|K]; [apply has_In in K; contradiction|apply eqc_eq, K].
Qed.
Lemma downs_iff a b : Forall2 down a b <-> map to_lower a = b.
Proof.
  split; [induction 1 as [|c d a b H _ IH]; [reflexivity|]; cbn; apply down_iff in H; congruence|].
  intros <-. induction a; constructor; [apply down_iff; reflexivity|assumption].
Qed.
Lemma to_lower_rem a b c : map to_lower [a; b; c] = B "rem" <-> In a (B "rR") /\ In b (B "eE") /\ In c (B "mM").
Proof.
  pose proof (ascii_cases (fun c => Bool.eqb (eqc (to_lower c) "r") (has c (B "rR"))) ltac:(vm_compute; reflexivity) a) as K1.
  pose proof (ascii_cases (fun c => Bool.eqb (eqc (to_lower c) "e") (has c (B "eE"))) ltac:(vm_compute; reflexivity) b) as K2.
  pose proof (ascii_cases (fun c => Bool.eqb (eqc (to_lower c) "m") (has c (B "mM"))) ltac:(vm_compute; reflexivity) c) as K3.
  cbn beta in *. apply eqb_prop in K1, K2, K3. rewrite <- !has_In, <- K1, <- K2, <- K3, !eqc_eq. change (B "rem") with ["r"; "e"; "m"]%char. cbn [map]. split; [intros E; injection E; auto|intros (-> & -> & ->); reflexivity].
Qed.
Lemma rem_nonspace c : In c (B "rR") -> is_space c = false. Proof. intros [<-|[<-|[]]]; reflexivity. Qed.
Lemma letter_nonspace c : In c (B "rRmMeE") -> is_space c = false. Proof. intros H. repeat destruct H as [<-|H]; try reflexivity. destruct H. Qed.
Lemma skipped_iff l : skipped l = true <-> ignored l.
Proof.
  unfold skipped, ignored. rewrite orb_true_iff.
  split.
  - intros [H|H].
    + left. apply blank_iff. destruct (strip l); [reflexivity|discriminate].
    + right. destruct l as [|c l]; [discriminate|]. apply orb_true_iff in H as [H|H]; [left; apply has_In in H; eauto|right].
      apply andb_true_iff in H as [H1 H2]. apply has_In in H2. pose proof (rem_nonspace _ H2) as Hs. rewrite lstrip_head in H1 by exact Hs. apply str_eqb_eq in H1.
      destruct (span_spec (fun x => negb (is_space x)) (c :: l)) as (E & _ & H3). destruct (span _ (c :: l)) as [w r]. cbn [fst snd] in *.
      destruct w as [|w1 [|w2 [|w3 [|]]]]; try discriminate H1. apply to_lower_rem in H1 as (A1 & A2 & A3).
      exists w1, w2, w3, r. split; [exact E|]. do 3 (split; [assumption|]). destruct r as [|s r]; [left; reflexivity|right]. exists s, r. split; [reflexivity|]. apply is_space_iff. destruct (is_space s); [reflexivity|discriminate].
  - intros [H|[(c & r & -> & H)|(a & b & c & r & -> & Ha & Hb & Hc & Hr)]].
    + left. apply blank_iff in H. rewrite H. reflexivity.
    + right. apply has_In in H. rewrite H. reflexivity.
    + right. apply orb_true_iff. right. pose proof (rem_nonspace _ Ha) as Hs. rewrite lstrip_head by exact Hs.
      change (a :: b :: c :: r) with ([a; b; c] ++ r). rewrite span_app.
      * cbn [fst]. apply andb_true_iff. split; [apply str_eqb_eq, to_lower_rem; auto|apply has_In, Ha].
      * assert (Hb2 := letter_nonspace b ltac:(destruct Hb as [<-|[<-|[]]]; apply has_In; reflexivity)). assert (Hc2 := letter_nonspace c ltac:(destruct Hc as [<-|[<-|[]]]; apply has_In; reflexivity)). cbn [forallb]. rewrite Hs, Hb2, Hc2. reflexivity.
      * destruct r as [|s r]; [exact I|]. destruct Hr as [|(x & r2 & E & Hr)]; [discriminate|]. injection E as <- <-. apply is_space_iff in Hr. rewrite Hr. reflexivity.
Qed.
Lemma header_iff l n : match_section l = Some n <-> header l n.
Proof.
  unfold match_section, header. split.
  - destruct l as [|c r]; [discriminate|]. destruct (eqc c "[") eqn:Hc; [|discriminate]. apply eqc_eq in Hc as ->.
    destruct (span_spec (fun x => negb (eqc x "]")) r) as (E & H1 & H2). destruct (span _ r) as [h r']. cbn [fst snd] in *.
    destruct (nonempty h) eqn:Hh; [|discriminate]. destruct r' as [|d r']; [discriminate|]. cbn. intros [= <-]. exists r'.
    split; [|split].
    + apply negb_false_iff, eqc_eq in H2 as ->. rewrite E. reflexivity.
    + intros ->. discriminate.
    + intros Hin. rewrite forallb_forall in H1. apply H1 in Hin. discriminate.
  - intros (rest & -> & Hn & Hb). change (B "[" ++ n ++ B "]" ++ rest) with ("["%char :: n ++ "]"%char :: rest). cbn [eqc Ascii.eqb Bool.eqb].
    replace (eqc "[" "[") with true by reflexivity. rewrite span_app; [|apply forallb_forall; intros x Hx; apply negb_true_iff, eqc_neq; intros ->; contradiction|reflexivity].
    destruct n; [contradiction|reflexivity].
Qed.
Lemma ends_in_ws_iff s : ends_in_ws s <-> exists c, last s = Some c /\ is_space c = true.
Proof.
  split.
  - intros (s' & c & -> & H). exists c. rewrite last_snoc. split; [reflexivity|apply is_space_iff, H].
  - intros (c & H & Hc). apply last_Some in H as [s' ->]. exists s', c. split; [reflexivity|apply is_space_iff, Hc].
Qed.
Lemma uncommented_iff t u : uncommented t u <-> cut_comment t = u.
Proof.
  unfold cut_comment. split.
  - intros [H|a b -> Ha H1 H2|a b -> Ha H1 H2].
    + rewrite span_all; [reflexivity|]. apply forallb_forall. intros x Hx. apply negb_true_iff, eqc_neq. intros ->. contradiction.
    + rewrite span_app; [|apply forallb_forall; intros x Hx; apply negb_true_iff, eqc_neq; intros ->; contradiction|reflexivity]. change (B ";" ++ b) with (";"%char :: b) in *. cbn match.
      assert (E : ends_in_ws match a with [] => a ++ ";"%char :: b | _ => a end) by (destruct a; [apply H2; reflexivity|apply H1; discriminate]).
      apply ends_in_ws_iff in E as (c & -> & ->). reflexivity.
    + rewrite span_app; [|apply forallb_forall; intros x Hx; apply negb_true_iff, eqc_neq; intros ->; contradiction|reflexivity]. change (B ";" ++ b) with (";"%char :: b) in *. cbn match.
      assert (E : ~ ends_in_ws match a with [] => a ++ ";"%char :: b | _ => a end) by (destruct a; [apply H2; reflexivity|apply H1; discriminate]).
      destruct (last _) as [c|] eqn:El; [|reflexivity]. destruct (is_space c) eqn:Ec; [|reflexivity]. exfalso. apply E, ends_in_ws_iff. eauto.
  - destruct (span_spec (fun x => negb (eqc x ";")) t) as (E & H1 & H2). destruct (span _ t) as [a r]. cbn [fst snd] in *.
    assert (Ha : ~ In ";"%char a) by (intros Hin; rewrite forallb_forall in H1; apply H1 in Hin; discriminate).
    destruct r as [|d r]; [intros <-; rewrite app_nil_r in E; subst; apply uc_none, Ha|].
    apply negb_false_iff, eqc_eq in H2 as ->. intros Hu.
    destruct (last match a with [] => t | _ => a end) as [c|] eqn:El; [destruct (is_space c) eqn:Ec|].
    + subst u. apply (uc_cut _ a r E Ha).
      * intros Hn. apply ends_in_ws_iff. exists c. destruct a; [contradiction|]. auto.
      * intros ->. apply ends_in_ws_iff. exists c. auto.
    + subst u. apply (uc_kept _ a r E Ha).
      * intros Hn Hw. apply ends_in_ws_iff in Hw as (c' & Hc & Hs). destruct a; [contradiction|]. congruence.
      * intros -> Hw. apply ends_in_ws_iff in Hw as (c' & Hc & Hs). congruence.
    + exfalso. destruct a; [subst t|]; [destruct r using rev_ind; [discriminate|]; cbn [app] in El; rewrite app_comm_cons, last_snoc in El; discriminate|].
      apply last_None in El. discriminate.
Qed.
Lemma value_text_iff r v : value_text r v <-> option_text (lstrip r) = v.
Proof.
  unfold value_text, option_text. split.
  - intros (sp & t & u & w & -> & Hsp & Ht & Hu & Hw & H1 & H2). apply all_space_iff in Hsp. rewrite lstrip_app by exact Hsp.
    rewrite lstrip_head. 2:{ destruct t as [|c t]; [exact I|]. apply is_space_niff. apply (Ht c t). reflexivity. }
    apply uncommented_iff in Hu as ->. apply stripped_strip in Hw as ->. destruct (str_eqb w (B """""")) eqn:E.
    + apply str_eqb_eq in E. rewrite H1; auto.
    + apply str_eqb_neq in E. rewrite H2; auto.
  - intros H. destruct (lstrip_spec r) as (l & E & Hl & Hh). exists l, (lstrip r), (cut_comment (lstrip r)), (strip (cut_comment (lstrip r))).
    split; [exact E|]. split; [apply all_space_iff, Hl|]. split. { intros c t' Et. rewrite Et in Hh. apply is_space_niff, Hh. }
    split; [apply uncommented_iff; reflexivity|]. split; [apply stripped_strip; reflexivity|].
    destruct (str_eqb _ (B """""")) eqn:Eq.
    + apply str_eqb_eq in Eq. split; [auto|contradiction].
    + apply str_eqb_neq in Eq. split; [contradiction|auto].
Qed.
Lemma rstrip_spec s : exists r, s = rstrip s ++ r /\ all_space r /\ match last (rstrip s) with None => True | Some c => is_space c = false end.
Proof.
  unfold rstrip. destruct (lstrip_spec (rev s)) as (l & E & Hl & Hh). exists (rev l). split; [|split].
  - rewrite <- rev_app_distr, <- E, rev_involutive. reflexivity.
  - apply all_space_rev, Hl.
  - destruct (lstrip (rev s)); [exact I|]. cbn [rev]. rewrite last_snoc. exact Hh.
Qed.
Lemma separator_iff c : separator c = true <-> In c (B ":=").
Proof. unfold separator. rewrite orb_true_iff, !eqc_eq. split; [intros [->| ->]; [left|right; left]; reflexivity|intros [<-|[<-|[]]]; auto]. Qed.
Lemma setting_iff l o v : ~ In c_nl l ->
  (exists name w, match_option l = Some (name, w) /\ o = map to_lower (rstrip name) /\ v = option_text w) <-> setting l o v.
Proof.
  intros Hnl. unfold setting. split.
  - intros (name & w & H & -> & ->). unfold match_option in H. destruct l as [|c l]; [discriminate|].
    destruct (is_space c || separator c) eqn:Hc; [discriminate|]. apply orb_false_iff in Hc as [Hc1 Hc2].
    destruct (span_spec (fun x => negb (separator x)) (c :: l)) as (E & H1 & H2). destruct (span _ (c :: l)) as [nm r]. cbn [fst snd] in *.
    destruct r as [|d r]; [discriminate|]. injection H as <- <-. destruct (rstrip_spec nm) as (sp & En & Hsp & Hlast).
    assert (Hne : exists nm', nm = c :: nm'). { destruct nm as [|x nm]; cbn [app] in E; injection E as E1 E2; [subst d; rewrite Hc2 in H2; discriminate|subst; eauto]. }
    destruct Hne as [nm' ->].
    assert (Hr : exists k, rstrip (c :: nm') = c :: k). { destruct (rstrip (c :: nm')) as [|x k]; [cbn [app] in En; subst sp; inversion Hsp; congruence|]. cbn [app] in En. injection En as <- En. eauto. }
    destruct Hr as [k Hr].
    exists (rstrip (c :: nm')), sp, d, r. split; [|split; [|split; [|split; [|split; [|split; [|split]]]]]].
    + rewrite E. cbn [app]. rewrite app_assoc, <- En. reflexivity.
    + apply separator_iff. destruct (separator d); [reflexivity|discriminate].
    + intros x Hx Hs. apply separator_iff in Hs. rewrite forallb_forall in H1. assert (Hin : In x (c :: nm')) by (rewrite En; apply in_or_app; auto). apply H1 in Hin. rewrite Hs in Hin. discriminate.
    + rewrite Hr. discriminate.
    + apply trimmed_str_iff. split; [rewrite Hr; exact Hc1|exact Hlast].
    + apply all_space_iff, Hsp.
    + apply downs_iff. reflexivity.
    + apply value_text_iff. rewrite span_all; [reflexivity|]. apply forallb_forall. intros x Hx. apply negb_true_iff, eqc_neq. intros ->.
      apply Hnl. rewrite E. apply in_or_app. right. right. apply lstrip_sub, Hx.
  - intros (name & sp & sep & r & -> & Hsep & Hname & Hne & Htr & Hsp & Hd & Hv). apply separator_iff in Hsep. apply trimmed_str_iff in Htr. apply all_space_iff in Hsp.
    apply downs_iff in Hd. apply value_text_iff in Hv. exists (name ++ sp), (lstrip r). split; [|split].
    + destruct name as [|c name]; [contradiction|]. unfold match_option. rewrite <- app_comm_cons. destruct Htr as [Hc _]. rewrite Hc.
      assert (Hs : separator c = false). { apply not_true_is_false. intros Hs. apply separator_iff in Hs. apply (Hname c); [left; reflexivity|exact Hs]. }
      rewrite Hs. cbn [orb]. rewrite app_comm_cons, app_assoc. rewrite span_app.
      * f_equal. f_equal. rewrite span_all; [reflexivity|]. apply forallb_forall. intros x Hx. apply negb_true_iff, eqc_neq. intros ->.
        apply Hnl. apply in_or_app. right. apply in_or_app. right. right. apply lstrip_sub, Hx.
      * apply forallb_forall. intros x Hx. apply negb_true_iff. apply not_true_is_false. intros Hx'. apply in_app_or in Hx as [Hx|Hx].
        { apply separator_iff in Hx'. apply (Hname x Hx Hx'). }
        { unfold all_space in Hsp. rewrite Forall_forall in Hsp. assert (Hw := Hsp x ltac:(apply elem_of_list_In; exact Hx)).
          apply separator_iff in Hx'. destruct Hx' as [<-|[<-|[]]]; discriminate Hw. }
      * cbn [app]. rewrite Hsep. reflexivity.
    + rewrite rstrip_app by exact Hsp. rewrite rstrip_last by apply Htr. auto.
    + auto.
Qed.

(** ** ordered dictionaries *)
Section od.
Context {V : Type}.
Implicit Types d : odict V.
Lemma od_get_set k v d k' : od_get k' (od_set k v d) = if str_eqb k' k then Some v else od_get k' d.
Proof.
  induction d as [|[x w] d IH]; cbn.
  - reflexivity.
  - destruct (str_eqb k x) eqn:E; cbn.
    + apply str_eqb_eq in E as ->. destruct (str_eqb k' x); reflexivity.
    + rewrite IH. destruct (str_eqb k' x) eqn:E'; [|reflexivity]. apply str_eqb_eq in E' as ->. destruct (str_eqb x k) eqn:E2; [|reflexivity]. apply str_eqb_eq in E2 as ->. rewrite str_eqb_refl in E. discriminate.
Qed.
Lemma od_set_set k v w d : od_set k v (od_set k w d) = od_set k v d.
Proof. induction d as [|[x u] d IH]; cbn; [rewrite str_eqb_refl; reflexivity|]. destruct (str_eqb k x) eqn:E; cbn; [rewrite str_eqb_refl; reflexivity|]. rewrite E, IH. reflexivity. Qed.
Lemma od_set_same k v d : od_get k d = Some v -> od_set k v d = d.
Proof. induction d as [|[x u] d IH]; cbn; [discriminate|]. destruct (str_eqb k x) eqn:E; [intros [= ->]; apply str_eqb_eq in E as ->; reflexivity|]. intros H. rewrite IH by exact H. reflexivity. Qed.
Definition add_key (ks : list str) (k : str) : list str := if existsb (str_eqb k) ks then ks else ks ++ [k].
Lemma od_set_keys k v d : map fst (od_set k v d) = add_key (map fst d) k.
Proof.
  unfold add_key. induction d as [|[x u] d IH]; cbn; [reflexivity|]. destruct (str_eqb k x) eqn:E; cbn; [apply str_eqb_eq in E as ->; reflexivity|].
  rewrite IH. destruct (existsb _ _); reflexivity.
Qed.
Lemma od_get_keys k d : od_get k d <> None <-> In k (map fst d).
Proof.
  induction d as [|[x u] d IH]; cbn; [easy|]. destruct (str_eqb k x) eqn:E.
  - apply str_eqb_eq in E as ->. split; [auto|discriminate].
  - apply str_eqb_neq in E. rewrite IH. split; [auto|]. intros [->|H]; [contradiction|exact H].
Qed.
Lemma od_table d : NoDup (map fst d) -> d = omap (fun k => v ← od_get k d; Some (k, v)) (map fst d).
Proof.
  induction d as [|[x u] d IH]; [reflexivity|]. cbn [map fst]. intros H. apply NoDup_cons in H as [Hx Hd]. cbn. rewrite str_eqb_refl. cbn. f_equal.
  rewrite (IH Hd) at 1. apply list_omap_ext, Forall2_same_length_lookup. split; [reflexivity|]. intros i a b Ha Hb.
  assert (a = b) as <- by congruence. cbn. destruct (str_eqb a x) eqn:E; [|reflexivity]. apply str_eqb_eq in E as ->. exfalso. apply Hx. apply elem_of_list_lookup. eauto.
Qed.
Lemma add_key_NoDup ks k : NoDup ks -> NoDup (add_key ks k).
Proof.
  intros H. unfold add_key. destruct (existsb (str_eqb k) ks) eqn:E; [exact H|]. apply NoDup_app. split; [exact H|]. split; [|apply NoDup_singleton].
  intros x Hx Hk. apply elem_of_list_singleton in Hk as ->. apply not_true_iff_false in E. apply E, existsb_exists. exists k. split; [apply elem_of_list_In, Hx|apply str_eqb_refl].
Qed.
Lemma add_keys_firsts l : forall ks, fold_left add_key l ks = ks ++ filter (fun k => k ∉ ks) (firsts l).
Proof.
  induction l as [|x l IH]; intros ks; cbn [fold_left firsts]; [rewrite app_nil_r; reflexivity|].
  rewrite IH. unfold add_key. destruct (existsb (str_eqb x) ks) eqn:E.
  - apply existsb_exists in E as (y & Hy & E). apply str_eqb_eq in E as <-. rewrite filter_cons_False by (intros H; apply H, elem_of_list_In, Hy).
    f_equal. rewrite list_filter_filter. apply list_filter_iff. intros y. apply elem_of_list_In in Hy. split; [intros H; split; [exact H|intros ->; contradiction]|tauto].
  - assert (Hx : x ∉ ks). { intros Hx. apply not_true_iff_false in E. apply E, existsb_exists. exists x. split; [apply elem_of_list_In, Hx|apply str_eqb_refl]. }
    rewrite filter_cons_True by exact Hx. rewrite <- app_assoc. f_equal. cbn [app]. f_equal. rewrite list_filter_filter. apply list_filter_iff. intros y.
    rewrite not_elem_of_app, not_elem_of_cons. split; [intros (H1 & H2 & _); auto|]. intros [H1 H2]. split; [exact H1|]. split; [exact H2|apply not_elem_of_nil].
Qed.
Lemma firsts_keys l : firsts l = fold_left add_key l [].
Proof. rewrite add_keys_firsts. cbn [app]. induction (firsts l) as [|x k IH]; [reflexivity|]. rewrite filter_cons_True by apply not_elem_of_nil. f_equal. exact IH. Qed.
Lemma firsts_elem x l : x ∈ firsts l <-> x ∈ l.
Proof.
  induction l as [|y l IH]; [reflexivity|]. cbn [firsts]. rewrite !elem_of_cons, elem_of_list_filter, IH. destruct (decide (x = y)); tauto.
Qed.
Lemma firsts_NoDup l : NoDup (firsts l).
Proof.
  induction l as [|y l IH]; [apply NoDup_nil_2|]. cbn [firsts]. apply NoDup_cons. split; [|apply NoDup_filter, IH]. rewrite elem_of_list_filter. tauto.
Qed.
Lemma firsts_firsts l : firsts (firsts l) = firsts l.
Proof.
  assert (H : forall k, NoDup k -> firsts k = k). { induction k as [|x k IHk]; [reflexivity|]. intros H. apply NoDup_cons in H as [Hx Hk]. cbn [firsts]. rewrite IHk by exact Hk. f_equal.
    clear - Hx. induction k as [|y k IH]; [reflexivity|]. apply not_elem_of_cons in Hx as [H1 H2]. rewrite filter_cons_True by congruence. f_equal. auto. }
  apply H, firsts_NoDup.
Qed.
Lemma firsts_app a b : firsts (a ++ b) = firsts a ++ filter (fun k => k ∉ a) (firsts b).
Proof.
  rewrite (firsts_keys (a ++ b)), fold_left_app, add_keys_firsts, <- firsts_keys. f_equal.
  apply list_filter_iff. intros x. rewrite firsts_elem. reflexivity.
Qed.
Lemma firsts_filter (x : str) l : filter (fun k => k <> x) (firsts l) = firsts (filter (fun k => k <> x) l).
Proof.
  induction l as [|y l IH]; [reflexivity|]. cbn [firsts]. destruct (decide (y = x)) as [->|Hy].
  - rewrite filter_cons_False by tauto. rewrite filter_cons_False by tauto. rewrite <- IH, list_filter_filter. apply list_filter_iff. tauto.
  - rewrite !filter_cons_True by exact Hy. cbn [firsts]. f_equal. rewrite <- IH, !list_filter_filter. apply list_filter_iff. tauto.
Qed.
Lemma od_update_app d a b : od_update d (a ++ b) = od_update (od_update d a) b.
Proof. apply fold_left_app. Qed.
Lemma od_update_keys b : forall d, map fst (od_update d b) = fold_left add_key (map fst b) (map fst d).
Proof. induction b as [|[k v] b IH]; intros d; [reflexivity|]. cbn [od_update fold_left map fst snd]. change (fold_left _ b ?x) with (od_update x b). rewrite IH, od_set_keys. reflexivity. Qed.
Lemma od_update_NoDup b d : NoDup (map fst d) -> NoDup (map fst (od_update d b)).
Proof. intros H. rewrite od_update_keys. revert H. generalize (map fst d). induction (map fst b) as [|k l IH]; intros ks H; [exact H|]. cbn. apply IH, add_key_NoDup, H. Qed.
Definition last_of (k : str) (b : odict V) : option V := snd <$> last (filter (fun e => fst e = k) b).
Lemma last_of_cons k e b : last_of k (e :: b) = match last_of k b with Some v => Some v | None => if str_eqb k (fst e) then Some (snd e) else None end.
Proof.
  unfold last_of. destruct (str_eqb k (fst e)) eqn:E.
  - apply str_eqb_eq in E. rewrite filter_cons_True by auto. destruct (filter _ b) as [|x l] eqn:F; [reflexivity|].
    rewrite last_cons. destruct (last (x :: l)) eqn:L; [reflexivity|]. apply last_None in L. discriminate.
  - apply str_eqb_neq in E. rewrite filter_cons_False by auto. destruct (last _); reflexivity.
Qed.
Lemma od_update_get k b : forall d, od_get k (od_update d b) = match last_of k b with Some v => Some v | None => od_get k d end.
Proof.
  induction b as [|e b IH]; intros d; [reflexivity|]. cbn [od_update fold_left]. change (fold_left _ b ?x) with (od_update x b). rewrite IH, od_get_set, last_of_cons.
  destruct (last_of k b); [reflexivity|]. destruct (str_eqb k (fst e)); reflexivity.
Qed.
Lemma last_of_get k d : NoDup (map fst d) -> last_of k d = od_get k d.
Proof.
  induction d as [|[x u] d IH]; [reflexivity|]. cbn [map fst]. intros H. apply NoDup_cons in H as [Hx Hd]. rewrite last_of_cons, IH by exact Hd. cbn.
  destruct (str_eqb k x) eqn:E; [|destruct (od_get k d); reflexivity]. apply str_eqb_eq in E as ->. destruct (od_get x d) eqn:G; [|reflexivity].
  exfalso. apply Hx, elem_of_list_In, od_get_keys. congruence.
Qed.
Lemma last_of_app k a b : last_of k (a ++ b) = match last_of k b with Some v => Some v | None => last_of k a end.
Proof. unfold last_of. rewrite filter_app, last_app. destruct (last (filter _ b)); reflexivity. Qed.
End od.
