(** The parsing functions of the model agree with LineSpec.v. *)
From Verif Require Import Base StrFacts Num Env Stats Glob Metrics Gen Processor LineSpec.

(** ** character classes, by enumeration of the 256 bytes *)
Lemma ascii_cases (P : ascii -> bool) :
  forallb P (map ascii_of_nat (seq 0 256)) = true -> forall c, P c = true.
Proof.
  intros H c. rewrite forallb_forall in H. apply H.
  rewrite <- (ascii_nat_embedding c). apply in_map. apply in_seq.
  pose proof (nat_ascii_bounded c). lia.
Qed.
Lemma in_bool c cs : In c cs <-> has c cs = true.
Proof. symmetry. apply has_In. Qed.
Lemma class_iff (p : ascii -> bool) (cs : str) :
  forallb (fun c => Bool.eqb (p c) (has c cs)) (map ascii_of_nat (seq 0 256)) = true ->
  forall c, p c = true <-> In c cs.
Proof.
  intros H c. pose proof (ascii_cases _ H c) as E. simpl in E. apply Bool.eqb_prop in E.
  rewrite E. apply has_In.
Qed.
Lemma class_niff (p : ascii -> bool) (cs : str) :
  (forall c, p c = true <-> In c cs) -> forall c, p c = false <-> ~ In c cs.
Proof. intros H c. rewrite <- H. destruct (p c); split; congruence. Qed.

Lemma is_space_iff c : is_space c = true <-> In c ws_chars.
Proof. revert c. apply class_iff. vm_compute. reflexivity. Qed.
Lemma is_space_niff c : is_space c = false <-> ~ In c ws_chars.
Proof. revert c. apply class_niff, is_space_iff. Qed.
Lemma is_digit_iff c : is_digit c = true <-> In c digit_chars.
Proof. revert c. apply class_iff. vm_compute. reflexivity. Qed.
Lemma key_char_iff c : key_char c = true <-> In c name_chars.
Proof. revert c. apply class_iff. vm_compute. reflexivity. Qed.
Lemma key_char_niff c : key_char c = false <-> ~ In c name_chars.
Proof. revert c. apply class_niff, key_char_iff. Qed.
Lemma is_slash_iff c : is_slash c = true <-> In c (B "/").
Proof. revert c. apply class_iff. vm_compute. reflexivity. Qed.
Lemma rate_char_iff c : rate_char c = true <-> In c rate_chars.
Proof. revert c. apply class_iff. vm_compute. reflexivity. Qed.

(** ** normalize_key *)
Section runs.
Context (p : ascii -> bool) (cs r : str) (Hp : forall c, p c = true <-> In c cs).

Lemma Hp' c : p c = false <-> ~ In c cs.
Proof. apply class_niff, Hp. Qed.

Lemma sub_runs_tail w s : all_in cs w -> sub_runs p r true (w ++ s) = sub_runs p r true s.
Proof.
  induction w as [|c w IH]; intros H; simpl; [reflexivity|].
  assert (p c = true) as -> by (apply Hp, H; left; auto).
  apply IH. intros x Hx. apply H. right; auto.
Qed.
Lemma sub_runs_stop s : (forall c s', s = c :: s' -> ~ In c cs) ->
  sub_runs p r true s = sub_runs p r false s.
Proof.
  destruct s as [|c s]; intros H; simpl; [reflexivity|].
  assert (p c = false) as -> by (apply Hp'; eapply H; reflexivity). reflexivity.
Qed.
Lemma collapse_sub_runs s t : collapse cs r s t -> sub_runs p r false s = t.
Proof.
  induction 1 as [|c s t Hc _ IH|w s t Hne Hw Hmax _ IH]; simpl; [reflexivity| |].
  - apply Hp' in Hc. rewrite Hc. rewrite IH. reflexivity.
  - destruct w as [|c w]; [congruence|]. simpl.
    assert (p c = true) as -> by (apply Hp, Hw; left; auto).
    rewrite sub_runs_tail, sub_runs_stop, IH; auto.
    intros x Hx. apply Hw. right; auto.
Qed.
Lemma sub_runs_collapse s : collapse cs r s (sub_runs p r false s).
Proof.
  remember (length s) as n eqn:Hn. assert (Hle : (length s <= n)%nat) by lia. clear Hn.
  revert s Hle. induction n as [|n IH]; intros s Hle.
  - destruct s; [constructor|simpl in Hle; lia].
  - destruct s as [|c s]; [constructor|]. simpl in Hle.
    destruct (p c) eqn:E.
    + destruct (span_spec p s) as (H1 & H2 & H3).
      set (a := fst (span p s)) in *. set (b := snd (span p s)) in *.
      assert (Ha : all_in cs (c :: a)).
      { intros x [<-|Hx]; [apply Hp; auto|]. apply Hp.
        rewrite forallb_forall in H2. apply H2; auto. }
      assert (Hmax : forall d s', b = d :: s' -> ~ In d cs).
      { intros d s' Hb. rewrite Hb in H3. apply Hp'; exact H3. }
      rewrite H1. simpl. rewrite E.
      rewrite sub_runs_tail by (intros x Hx; apply Ha; right; auto).
      rewrite sub_runs_stop by auto.
      change (c :: a ++ b) with ((c :: a) ++ b).
      apply collapse_run; [easy|auto|auto|].
      apply IH. apply (f_equal (@length ascii)) in H1. rewrite app_length in H1. lia.
    + simpl. rewrite E. constructor; [apply Hp'; auto|]. apply IH. lia.
Qed.
End runs.

Lemma only_filter s t : only name_chars s t <-> t = filter key_char s.
Proof.
  split.
  - induction 1 as [|c s t Hc _ IH|c s t Hc _ IH]; [reflexivity| |].
    + apply key_char_iff in Hc. rewrite filter_cons_True by (rewrite Hc; exact I).
      congruence.
    + apply key_char_niff in Hc. rewrite filter_cons_False by (rewrite Hc; auto). auto.
  - intros ->. induction s as [|c s IH]; [constructor|].
    destruct (key_char c) eqn:E.
    + rewrite filter_cons_True by (rewrite E; exact I).
      apply only_keep; auto. apply key_char_iff; auto.
    + rewrite filter_cons_False by (rewrite E; auto).
      apply only_drop; auto. apply key_char_niff; auto.
Qed.

Lemma normalize_key_spec key out : normalize_key key = out <-> normalised key out.
Proof.
  unfold normalize_key, normalised. split.
  - intros <-. do 2 eexists. split; [apply sub_runs_collapse, is_space_iff|].
    split; [apply sub_runs_collapse, is_slash_iff|]. apply only_filter. reflexivity.
  - intros (a & b & Ha & Hb & Ho).
    apply (collapse_sub_runs is_space) in Ha; [|apply is_space_iff].
    apply (collapse_sub_runs is_slash) in Hb; [|apply is_slash_iff].
    apply only_filter in Ho. congruence.
Qed.

Lemma only_in cs s t : only cs s t -> all_in cs t.
Proof. induction 1; intros x Hx; [destruct Hx| |auto]. destruct Hx as [->|Hx]; auto. Qed.
Lemma normalize_key_alphabet key : all_in name_chars (normalize_key key).
Proof.
  assert (H : normalised key (normalize_key key)) by (apply normalize_key_spec; reflexivity).
  destruct H as (a & b & _ & _ & Ho). eapply only_in; eauto.
Qed.
Lemma collapse_id cs r s : (forall c, In c s -> ~ In c cs) -> collapse cs r s s.
Proof.
  induction s as [|c s IH]; intros H; constructor.
  - apply H; left; auto.
  - apply IH. intros x Hx; apply H; right; auto.
Qed.
Lemma only_id cs s : all_in cs s -> only cs s s.
Proof.
  induction s as [|c s IH]; intros H; constructor.
  - apply H; left; auto.
  - apply IH. intros x Hx; apply H; right; auto.
Qed.
Lemma name_chars_no_ws c : In c name_chars -> ~ In c ws_chars /\ ~ In c (B "/").
Proof.
  intros H. apply key_char_iff in H.
  pose proof (ascii_cases (fun c => negb (key_char c) || (negb (has c ws_chars) && negb (has c (B "/"))))
    ltac:(vm_compute; reflexivity) c) as E.
  cbv beta in E. rewrite H in E. cbn [negb orb] in E. apply andb_true_iff in E as [E1 E2].
  apply negb_true_iff in E1, E2. apply has_not_In in E1, E2. auto.
Qed.
Lemma normalize_key_id key : all_in name_chars key -> normalize_key key = key.
Proof.
  intros H. apply normalize_key_spec. exists key, key. repeat split.
  - apply collapse_id. intros c Hc. apply name_chars_no_ws, H, Hc.
  - apply collapse_id. intros c Hc. apply name_chars_no_ws, H, Hc.
  - apply only_id, H.
Qed.
Lemma normalize_key_idemp key : normalize_key (normalize_key key) = normalize_key key.
Proof. apply normalize_key_id, normalize_key_alphabet. Qed.

(** ** lines *)
Lemma barred_join l : barred l = join (B "|") l.
Proof. induction l as [|a [|b l] IH]; [reflexivity|reflexivity|].
  change (a ++ B "|" ++ barred (b :: l) = a ++ B "|" ++ join (B "|") (b :: l)). rewrite IH. reflexivity. Qed.
Lemma all_space_iff s : all_space s <-> all_in ws_chars s.
Proof.
  unfold all_space, all_in. rewrite Forall_forall. split; intros H c Hc.
  - apply is_space_iff, H, elem_of_list_In, Hc.
  - apply is_space_iff, H, elem_of_list_In, Hc.
Qed.
Lemma trimmed_str_iff s : trimmed_str s <-> no_outer_ws s.
Proof.
  unfold trimmed_str, no_outer_ws. split; intros [H1 H2]; split.
  - intros c s' ->. apply is_space_niff; exact H1.
  - intros c s' ->. rewrite last_snoc in H2. apply is_space_niff; exact H2.
  - destruct s as [|c s]; [exact I|]. apply is_space_niff. eapply H1; reflexivity.
  - destruct (last s) as [c|] eqn:E; [|exact I]. apply last_Some in E as [l' E].
    apply is_space_niff. eapply H2; exact E.
Qed.
Lemma stripped_strip s t : stripped s t <-> strip s = t.
Proof.
  split.
  - intros (l & r & -> & Hl & Hr & Ht). apply strip_unique.
    + apply all_space_iff; auto.
    + apply all_space_iff; auto.
    + apply trimmed_str_iff; auto.
  - intros <-. destruct (strip_spec s) as (l & r & Hs & Hl & Hr & H1 & H2).
    exists l, r. repeat split; auto; try (apply all_space_iff; auto);
      apply trimmed_str_iff; split; auto.
Qed.

Lemma In_B c d : In c (B (String d EmptyString)) <-> c = d.
Proof. simpl. intuition congruence. Qed.

Section process.
Context {S : Type} (bad : str -> M S unit) (pm : str -> str -> str -> list str -> M S unit).

Lemma base_process_line message key fields s :
  line_of message key fields ->
  exists typ, nth_error fields 1 = Some typ /\
    base_process bad pm message s = pm message typ (normalize_key key) fields s.
Proof.
  intros (Hs & Hk & Hlen & Hf). apply stripped_strip in Hs.
  rewrite barred_join in Hs.
  assert (Hc : has ":" message = true).
  { rewrite <- strip_has by reflexivity. rewrite Hs, has_app. simpl. apply orb_true_r. }
  unfold base_process. rewrite Hc. cbn [negb]. rewrite Hs.
  change (B ":" ++ join (B "|") fields) with (":"%char :: join (B "|") fields).
  rewrite split1_app by auto.
  assert (Hne : fields <> []) by (destruct fields; simpl in Hlen; [lia|easy]).
  assert (Hsplit : split_on "|" (join (B "|") fields) = fields).
  { change (B "|") with ["|"%char]. apply split_on_join; auto. }
  assert (Hbar : has "|" (join (B "|") fields) = true).
  { destruct fields as [|a [|b l]]; simpl in Hlen; [lia|lia|].
    change (join (B "|") (a :: b :: l)) with (a ++ B "|" ++ join (B "|") (b :: l)).
    rewrite !has_app. cbn. apply orb_true_r. }
  rewrite Hbar. cbn [negb]. rewrite Hsplit.
  assert (E : ((length fields <? 2) || (3 <? length fields))%nat = false) by lia.
  rewrite E.
  destruct fields as [|a [|b l]]; simpl in Hlen; [lia|lia|].
  exists b. split; reflexivity.
Qed.

Lemma base_process_not_line message s :
  (forall key fields, ~ line_of message key fields) -> base_process bad pm message s = bad message s.
Proof.
  intros Hno. unfold base_process.
  destruct (has ":" message) eqn:Hc; cbn [negb]; [|reflexivity].
  destruct (split1 ":" (strip message)) as [[key data]|] eqn:Hsp.
  - apply split1_Some in Hsp as [Hs Hk].
    destruct (has "|" data) eqn:Hb; cbn [negb]; [|reflexivity].
    destruct ((length (split_on "|" data) <? 2) || (3 <? length (split_on "|" data)))%nat eqn:E;
      [reflexivity|].
    exfalso. apply (Hno key (split_on "|" data)). split; [|split; [auto|split]].
    + apply stripped_strip. rewrite barred_join. change (B "|") with ["|"%char].
      rewrite join_split_on. exact Hs.
    + lia.
    + apply split_on_no_sep.
  - apply split1_None in Hsp. rewrite <- strip_has in Hc by reflexivity.
    apply has_In in Hc. contradiction.
Qed.
End process.

Lemma line_of_dec message : (exists key fields, line_of message key fields) \/
  (forall key fields, ~ line_of message key fields).
Proof.
  destruct (has ":" message) eqn:Hc.
  2:{ right. intros key fields (Hs & _). apply stripped_strip in Hs.
      rewrite <- strip_has in Hc by reflexivity. rewrite Hs, has_app in Hc. simpl in Hc.
      rewrite orb_true_r in Hc. discriminate. }
  destruct (split1 ":" (strip message)) as [[key data]|] eqn:Hsp.
  2:{ apply split1_None in Hsp. rewrite <- strip_has in Hc by reflexivity.
      apply has_In in Hc. contradiction. }
  destruct (split1_Some _ _ _ _ Hsp) as [Hs Hk].
  destruct (decide (length (split_on "|" data) = 2%nat \/ length (split_on "|" data) = 3%nat)) as [Hl|Hl].
  - left. exists key, (split_on "|" data). split; [|split; [auto|split; auto]].
    + apply stripped_strip. rewrite barred_join. change (B "|") with ["|"%char].
      rewrite join_split_on. exact Hs.
    + apply split_on_no_sep.
  - right. intros k f (H1 & H2 & H3 & H4). apply stripped_strip in H1. rewrite barred_join in H1.
    rewrite H1 in Hsp. change (B ":" ++ join (B "|") f) with (":"%char :: join (B "|") f) in Hsp.
    rewrite split1_app in Hsp by auto. injection Hsp as <- <-.
    change (B "|") with ["|"%char] in Hl. rewrite split_on_join in Hl; auto.
    destruct f; simpl in H3; [lia|easy].
Qed.

Lemma line_of_unique message key fields key' fields' :
  line_of message key fields -> line_of message key' fields' -> key = key' /\ fields = fields'.
Proof.
  intros (H1 & H2 & H3 & H4) (H1' & H2' & H3' & H4').
  apply stripped_strip in H1, H1'. rewrite H1 in H1'.
  assert (E : split1 ":" (key ++ ":"%char :: barred fields) = split1 ":" (key' ++ ":"%char :: barred fields')).
  { f_equal. exact H1'. }
  rewrite !split1_app in E by auto. injection E as -> E. split; [reflexivity|].
  rewrite !barred_join in E.
  rewrite <- (split_on_join "|" fields), <- (split_on_join "|" fields'); auto.
  - f_equal. exact E.
  - destruct fields'; simpl in H3'; [lia|easy].
  - destruct fields; simpl in H3; [lia|easy].
Qed.
