(** parse_float of the model accepts exactly the texts of LineSpec.float_text,
    with the same value. *)
From Verif Require Import Base StrFacts LineSpec LineFacts.
From Verif Require Import Processor.

Lemma digit_of_iff c d : digit_of c d <-> is_digit c = true /\ d = digit_val c.
Proof.
  split.
  - intros H. inversion H as [i c' Hn]; subst.
    do 10 (destruct i as [|i]; [injection Hn as <-; split; reflexivity|]). destruct i; discriminate.
  - intros [Hc ->].
    pose proof (ascii_cases (fun c => negb (is_digit c) ||
      match nth_error digit_chars (Z.to_nat (digit_val c)) with Some c' => eqc c' c | None => false end
      && (0 <=? digit_val c)) ltac:(vm_compute; reflexivity) c) as E.
    cbv beta in E. rewrite Hc in E. cbn [negb orb] in E. apply andb_true_iff in E as [E1 E2].
    destruct (nth_error digit_chars (Z.to_nat (digit_val c))) as [c'|] eqn:En; [|discriminate].
    apply eqc_eq in E1; subst c'.
    replace (digit_val c) with (Z.of_nat (Z.to_nat (digit_val c))) by lia.
    constructor. exact En.
Qed.

Lemma digits_fold s acc :
  fold_left (fun a c => a * 10 + digit_val c) s acc =
  acc * 10 ^ Z.of_nat (length s) + digits_val s.
Proof.
  unfold digits_val. revert acc. induction s as [|c s IH]; intros acc.
  - simpl. lia.
  - cbn [fold_left]. rewrite IH, (IH (0 * 10 + digit_val c)).
    cbn [length]. rewrite Nat2Z.inj_succ, Z.pow_succ_r by lia. lia.
Qed.
Lemma digits_val_cons c s :
  digits_val (c :: s) = digit_val c * 10 ^ Z.of_nat (length s) + digits_val s.
Proof. unfold digits_val at 1. cbn [fold_left]. rewrite digits_fold. lia. Qed.

Lemma digits_of_iff s v : digits_of s v <-> forallb is_digit s = true /\ v = digits_val s.
Proof.
  split.
  - induction 1 as [|c d s v Hc _ IH]; [split; reflexivity|].
    apply digit_of_iff in Hc as [Hc ->]. destruct IH as [IH ->].
    split; [simpl; rewrite Hc, IH; reflexivity|]. symmetry. apply digits_val_cons.
  - intros [H ->]. induction s as [|c s IH]; [constructor|].
    simpl in H. apply andb_true_iff in H as [Hc Hs].
    rewrite digits_val_cons. constructor; auto. apply digit_of_iff; auto.
Qed.

Definition is_sign (c : ascii) : bool := eqc c "-" || eqc c "+".
Lemma parse_sign_spec s : exists sg, s = sg ++ snd (parse_sign s) /\ sign_of sg (fst (parse_sign s)).
Proof.
  destruct s as [|c s]; simpl; [exists []; split; [reflexivity|constructor]|].
  destruct (eqc c "-") eqn:E1; [apply eqc_eq in E1; subst; exists (B "-"); split; [reflexivity|constructor]|].
  destruct (eqc c "+") eqn:E2; [apply eqc_eq in E2; subst; exists (B "+"); split; [reflexivity|constructor]|].
  exists []; split; [reflexivity|constructor].
Qed.
Lemma parse_sign_app sg neg b : sign_of sg neg ->
  (match b with [] => True | c :: _ => is_sign c = false end) -> parse_sign (sg ++ b) = (neg, b).
Proof.
  intros H Hb. inversion H; subst; simpl.
  - destruct b as [|c b]; simpl; [reflexivity|]. unfold is_sign in Hb.
    apply orb_false_iff in Hb as [-> ->]. reflexivity.
  - reflexivity.
  - reflexivity.
Qed.

Lemma digit_plain c : is_digit c = true -> is_space c = false /\ is_sign c = false.
Proof.
  intros Hc. pose proof (ascii_cases (fun c => negb (is_digit c) || (negb (is_space c) && negb (is_sign c)))
      ltac:(vm_compute; reflexivity) c) as E. cbv beta in E. rewrite Hc in E. cbn [negb orb] in E.
  apply andb_true_iff in E as [E1 E2]. apply negb_true_iff in E1, E2. auto.
Qed.
Lemma exp_of_iff s x : exp_of s x <-> parse_exponent s = Some x.
Proof.
  split.
  - intros H. inversion H as [|e sg neg t v He Hsg Hne Hd]; subst; [reflexivity|].
    unfold parse_exponent.
    assert (eqc (to_lower e) "e" = true) as -> by (destruct He as [->| ->]; reflexivity).
    apply digits_of_iff in Hd as [Hd ->].
    assert (Hh : match t with [] => True | c :: _ => is_sign c = false end).
    { destruct t as [|c t]; [exact I|]. simpl in Hd. apply andb_true_iff in Hd as [Hc _].
      apply digit_plain; exact Hc. }
    rewrite (parse_sign_app sg neg t) by auto.
    rewrite Hd. destruct t; [easy|]. reflexivity.
  - intros H. unfold parse_exponent in H. destruct s as [|c s].
    + injection H as <-. constructor.
    + destruct (eqc (to_lower c) "e") eqn:E; [|discriminate].
      assert (He : c = "e"%char \/ c = "E"%char).
      { pose proof (ascii_cases (fun c => negb (eqc (to_lower c) "e") || (eqc c "e" || eqc c "E"))
          ltac:(vm_compute; reflexivity) c) as E'. cbv beta in E'. rewrite E in E'.
        cbn [negb orb] in E'. apply orb_true_iff in E' as [E'|E']; apply eqc_eq in E'; auto. }
      destruct (parse_sign_spec s) as (sg & Hs & Hsg).
      destruct (parse_sign s) as [neg d]; simpl in Hs, Hsg.
      destruct (nonempty d && forallb is_digit d) eqn:Ed; [|discriminate].
      apply andb_true_iff in Ed as [Ed1 Ed2]. injection H as <-. rewrite Hs.
      change (if neg then - digits_val d else digits_val d) with (signed neg (digits_val d)).
      constructor; auto.
      * destruct d; easy.
      * apply digits_of_iff; auto.
Qed.

(** the text after the digits starts with neither a digit (nor a dot) *)
Lemma exp_of_head s x : exp_of s x -> match s with [] => True | c :: _ => is_digit c = false end.
Proof. intros H. inversion H as [|e sg neg t v He]; subst; [exact I|]. destruct He as [->| ->]; reflexivity. Qed.
Lemma exp_of_head_dot s x : exp_of s x -> match s with [] => True | c :: _ => eqc c "." = false end.
Proof. intros H. inversion H as [|e sg neg t v He]; subst; [exact I|]. destruct He as [->| ->]; reflexivity. Qed.

Lemma same_letter_iff a l : is_lower l = true -> (same_letter a l <-> to_lower a = l).
Proof.
  intros Hl. unfold same_letter, to_lower.
  assert (Hl' : (97 <= N_of_ascii l <= 122)%N) by (unfold is_lower, code in Hl; lia).
  destruct (is_upper a) eqn:Eu.
  - assert (Ha : (65 <= N_of_ascii a <= 90)%N) by (unfold is_upper, code in Eu; lia).
    split.
    + intros [->|[_ H]]; [lia|]. unfold code.
      replace (Z.to_N (Z.of_N (N_of_ascii a) + 32)) with (N_of_ascii l) by lia.
      apply ascii_N_embedding.
    + intros <-. right. split; [auto|].
      unfold code. rewrite N_ascii_embedding; [lia|].
      replace (Z.to_N (Z.of_N (N_of_ascii a) + 32)) with (N_of_ascii a + 32)%N by lia. lia.
  - split.
    + intros [->|[_ H]]; [reflexivity|]. unfold is_upper, code in Eu. lia.
    + intros ->. auto.
Qed.
Lemma word_iff s w : forallb is_lower w = true -> (word s w <-> map to_lower s = w).
Proof.
  revert s. induction w as [|l w IH]; intros s Hw; simpl in Hw.
  - unfold word. split.
    + intros H. inversion H; reflexivity.
    + intros H. destruct s; [constructor|discriminate].
  - apply andb_true_iff in Hw as [Hl Hw]. unfold word. split.
    + intros H. inversion H as [|a ? s' ? Ha Hs]; subst. simpl. f_equal.
      * apply same_letter_iff; auto.
      * apply IH; auto.
    + intros H. destruct s as [|a s]; [discriminate|]. simpl in H. injection H as H1 H2.
      constructor; [apply same_letter_iff; auto|]. apply IH; auto.
Qed.

Definition parse_body (neg : bool) (d : str) : option flit :=
  let low := map to_lower d in
  if str_eqb low (B "inf") || str_eqb low (B "infinity") then Some (FInf neg)
  else if str_eqb low (B "nan") then Some FNan
  else match parse_mantissa d with
       | Some (m, e, r) =>
           match parse_exponent r with
           | Some x => Some (FDec neg m (e + x))
           | None => None
           end
       | None => None
       end.

Lemma digit_not_word c : is_digit c || eqc c "." = true ->
  to_lower c <> "i"%char /\ to_lower c <> "n"%char.
Proof.
  intros H.
  pose proof (ascii_cases (fun c => negb (is_digit c || eqc c ".") ||
    (negb (eqc (to_lower c) "i") && negb (eqc (to_lower c) "n")))
    ltac:(vm_compute; reflexivity) c) as E. cbv beta in E. rewrite H in E. cbn [negb orb] in E.
  apply andb_true_iff in E as [E1 E2]. apply negb_true_iff in E1, E2.
  apply eqc_neq in E1, E2. auto.
Qed.
Lemma not_word_head c s :
  is_digit c || eqc c "." = true ->
  str_eqb (map to_lower (c :: s)) (B "inf") = false /\
  str_eqb (map to_lower (c :: s)) (B "infinity") = false /\
  str_eqb (map to_lower (c :: s)) (B "nan") = false.
Proof.
  intros H. apply digit_not_word in H as [H1 H2].
  repeat split; apply str_eqb_neq; intros E; simpl in E; injection E; intros; congruence.
Qed.
Lemma forallb_app_iff {A} (p : A -> bool) l k :
  forallb p (l ++ k) = true <-> forallb p l = true /\ forallb p k = true.
Proof. rewrite forallb_app, andb_true_iff. reflexivity. Qed.

Lemma float_body_parse neg b v : float_body neg b v -> parse_body neg b = Some v.
Proof.
  intros H. unfold parse_body. inversion H as [s Hw|s Hw|s Hw|ip m ex x Hne Hd He|ip fp m ex x Hne Hd He]; subst.
  - apply word_iff in Hw; [|reflexivity]. rewrite Hw. reflexivity.
  - apply word_iff in Hw; [|reflexivity]. rewrite Hw. reflexivity.
  - apply word_iff in Hw; [|reflexivity]. rewrite Hw. reflexivity.
  - apply digits_of_iff in Hd as [Hd ->].
    assert (Hb : exists c t, ip ++ ex = c :: t /\ is_digit c || eqc c "." = true).
    { destruct ip as [|c ip]; [easy|]. exists c, (ip ++ ex). split; [reflexivity|].
      simpl in Hd. apply andb_true_iff in Hd as [-> _]. reflexivity. }
    destruct Hb as (c & t & Eb & Hc). rewrite Eb.
    destruct (not_word_head c t Hc) as (-> & -> & ->). cbn [orb]. rewrite <- Eb.
    unfold parse_mantissa. rewrite span_app by (auto; eapply exp_of_head; eauto).
    assert (nonempty ip = true) as -> by (destruct ip; easy).
    pose proof (exp_of_head_dot _ _ He) as Hdot.
    destruct ex as [|e ex].
    + apply exp_of_iff in He. rewrite He. reflexivity.
    + rewrite Hdot. apply exp_of_iff in He. rewrite He. reflexivity.
  - apply digits_of_iff in Hd as [Hd ->]. apply forallb_app_iff in Hd as [Hi Hf].
    assert (Hb : exists c t, ip ++ B "." ++ fp ++ ex = c :: t /\ is_digit c || eqc c "." = true).
    { destruct ip as [|c ip].
      - exists "."%char, (fp ++ ex). split; reflexivity.
      - exists c, (ip ++ B "." ++ fp ++ ex). split; [reflexivity|].
        simpl in Hi. apply andb_true_iff in Hi as [-> _]. reflexivity. }
    destruct Hb as (c & t & Eb & Hc). rewrite Eb.
    destruct (not_word_head c t Hc) as (-> & -> & ->). cbn [orb]. rewrite <- Eb.
    unfold parse_mantissa. rewrite span_app by (auto; reflexivity).
    change (B "." ++ fp ++ ex) with ("."%char :: (fp ++ ex)). cbv beta iota. rewrite eqc_refl.
    rewrite span_app by (auto; eapply exp_of_head; eauto).
    assert (nonempty (ip ++ fp) = true) as -> by (destruct (ip ++ fp); easy).
    apply exp_of_iff in He. rewrite He. do 2 f_equal. lia.
Qed.

Lemma parse_body_float neg b v : parse_body neg b = Some v -> float_body neg b v.
Proof.
  unfold parse_body. intros H.
  destruct (str_eqb (map to_lower b) (B "inf") || str_eqb (map to_lower b) (B "infinity")) eqn:E1.
  { apply orb_true_iff in E1 as [E|E]; apply str_eqb_eq in E; injection H as <-.
    - apply fb_inf. apply word_iff; auto.
    - apply fb_infinity. apply word_iff; auto. }
  destruct (str_eqb (map to_lower b) (B "nan")) eqn:E2.
  { apply str_eqb_eq in E2; injection H as <-. apply fb_nan. apply word_iff; auto. }
  clear E1 E2.
  destruct (parse_mantissa b) as [[[m e] r]|] eqn:Em; [|discriminate].
  destruct (parse_exponent r) as [x|] eqn:Ex; [|discriminate]. injection H as <-.
  apply exp_of_iff in Ex. unfold parse_mantissa in Em.
  destruct (span_spec is_digit b) as (Hb & Hi & Hh).
  destruct (span is_digit b) as [ip r1]. cbn [fst snd] in Hb, Hi, Hh.
  assert (Hint : forall r', (if nonempty ip then Some (digits_val ip, 0, r') else None) = Some (m, e, r) ->
                 b = ip ++ r' -> float_body neg b (FDec neg m (e + x))).
  { intros r' H1 H2. destruct (nonempty ip) eqn:En; [|discriminate]. injection H1 as <- <- <-.
    rewrite Z.add_0_l, H2. apply fb_int; auto; [destruct ip; easy|apply digits_of_iff; auto]. }
  destruct r1 as [|c r2]; [apply (Hint []); auto|].
  destruct (eqc c ".") eqn:Ec; [|apply (Hint (c :: r2)); auto].
  apply eqc_eq in Ec; subst c.
  destruct (span_spec is_digit r2) as (Hb2 & Hf & _).
  destruct (span is_digit r2) as [fp r3]. cbn [fst snd] in Hb2, Hf.
  destruct (nonempty (ip ++ fp)) eqn:En; [|discriminate]. injection Em as <- <- <-.
  rewrite Hb, Hb2.
  replace (- Z.of_nat (length fp) + x) with (x - Z.of_nat (length fp)) by lia.
  apply (fb_frac neg ip fp (digits_val (ip ++ fp)) r3 x).
  - destruct (ip ++ fp); easy.
  - apply digits_of_iff. split; [apply forallb_app_iff; auto|reflexivity].
  - exact Ex.
Qed.

Lemma last_app_ne {A} (l k : list A) : k <> [] -> last (l ++ k) = last k.
Proof.
  intros H. destruct k as [|x k] using rev_ind; [easy|]. rewrite app_assoc, !last_snoc. reflexivity.
Qed.
Definition plain (c : ascii) : bool := negb (is_space c) && negb (is_sign c).
Definition no_ws_word (s : str) : Prop := s <> [] /\ forallb (fun c => negb (is_space c)) s = true /\
  match s with [] => False | c :: _ => is_sign c = false end.

Lemma no_ws_word_intro p s : s <> [] -> forallb p s = true ->
  (forall c, p c = true -> is_space c = false) ->
  (match s with [] => False | c :: _ => is_sign c = false end) -> no_ws_word s.
Proof.
  intros Hne Hp Hs Hh. split; [auto|split; auto].
  apply forallb_forall. intros c Hc. rewrite forallb_forall in Hp. rewrite Hs; auto.
Qed.
Lemma letters_no_ws s w : map to_lower s = w -> forallb is_lower w = true -> w <> [] -> no_ws_word s.
Proof.
  intros Hm Hl Hne.
  assert (H : forallb (fun c => is_lower (to_lower c)) s = true).
  { rewrite <- Hm in Hl. clear -Hl. induction s as [|c s IH]; [reflexivity|].
    simpl in *. apply andb_true_iff in Hl as [-> Hl]. simpl. auto. }
  eapply no_ws_word_intro; [destruct s; [simpl in Hm; congruence|easy]|exact H| |].
  - intros c Hc. pose proof (ascii_cases (fun c => negb (is_lower (to_lower c)) || negb (is_space c))
      ltac:(vm_compute; reflexivity) c) as E. cbv beta in E. rewrite Hc in E. cbn [negb orb] in E.
    apply negb_true_iff in E; exact E.
  - destruct s as [|c s]; [simpl in Hm; congruence|]. simpl in H. apply andb_true_iff in H as [Hc _].
    pose proof (ascii_cases (fun c => negb (is_lower (to_lower c)) || negb (is_sign c))
      ltac:(vm_compute; reflexivity) c) as E. cbv beta in E. rewrite Hc in E. cbn [negb orb] in E.
    apply negb_true_iff in E; exact E.
Qed.
Lemma digits_no_ws s : forallb is_digit s = true -> forallb (fun c => negb (is_space c)) s = true.
Proof.
  intros H. apply forallb_forall. intros c Hc. rewrite forallb_forall in H.
  destruct (digit_plain c (H c Hc)) as [-> _]. reflexivity.
Qed.
Lemma exp_no_ws s x : exp_of s x -> forallb (fun c => negb (is_space c)) s = true.
Proof.
  intros H. inversion H as [|e sg neg t v He Hsg Hne Hd]; subst; [reflexivity|].
  simpl. assert (is_space e = false) as -> by (destruct He as [->| ->]; reflexivity). simpl.
  apply forallb_app_iff. split.
  - inversion Hsg; reflexivity.
  - apply digits_of_iff in Hd as [Hd _]. apply digits_no_ws; auto.
Qed.
Lemma float_body_no_ws neg b v : float_body neg b v -> no_ws_word b.
Proof.
  intros H. inversion H as [s Hw|s Hw|s Hw|ip m ex x Hne Hd He|ip fp m ex x Hne Hd He]; subst;
    try (apply word_iff in Hw; [|reflexivity]; eapply letters_no_ws; [exact Hw|reflexivity|easy]).
  - apply digits_of_iff in Hd as [Hd _]. split; [destruct ip; easy|split].
    + apply forallb_app_iff. split; [apply digits_no_ws; auto|eapply exp_no_ws; eauto].
    + destruct ip as [|c ip]; [easy|]. simpl in Hd. apply andb_true_iff in Hd as [Hc _].
      simpl. apply digit_plain; auto.
  - apply digits_of_iff in Hd as [Hd _]. apply forallb_app_iff in Hd as [Hi Hf].
    split; [destruct ip; easy|split].
    + rewrite !forallb_app_iff. repeat split; [apply digits_no_ws; auto|apply digits_no_ws; auto|eapply exp_no_ws; eauto].
    + destruct ip as [|c ip]; [reflexivity|]. simpl in Hi. apply andb_true_iff in Hi as [Hc _].
      simpl. apply digit_plain; auto.
Qed.

Lemma parse_float_body s : parse_float s =
  let '(neg, d) := parse_sign (strip s) in parse_body neg d.
Proof. unfold parse_float, parse_body. destruct (parse_sign (strip s)). reflexivity. Qed.

Theorem parse_float_spec s v : parse_float s = Some v <-> float_text s v.
Proof.
  rewrite parse_float_body. split.
  - intros H. destruct (strip_spec s) as (l & r & Hs & Hl & Hr & _ & _).
    destruct (parse_sign_spec (strip s)) as (sg & Hg & Hsg).
    destruct (parse_sign (strip s)) as [neg d]. cbn [fst snd] in Hg, Hsg.
    apply parse_body_float in H. rewrite Hs, Hg, <- app_assoc.
    eapply ft; eauto; apply all_space_iff; auto.
  - intros H. inversion H as [l sg neg b r v' Hl Hr Hsg Hb]; subst.
    destruct (float_body_no_ws _ _ _ Hb) as (Hne & Hnw & Hh).
    assert (Es : strip (l ++ sg ++ b ++ r) = sg ++ b).
    { rewrite (app_assoc sg b r). apply strip_unique; try (apply all_space_iff; auto). split.
      - inversion Hsg; subst; simpl; try reflexivity.
        destruct b as [|c b]; [easy|]. simpl in Hnw. apply andb_true_iff in Hnw as [Hc _].
        apply negb_true_iff in Hc. exact Hc.
      - rewrite last_app_ne by auto. destruct (last b) as [c|] eqn:El; [|exact I].
        apply last_Some in El as [b' ->]. apply forallb_app_iff in Hnw as [_ Hc].
        simpl in Hc. rewrite andb_true_r in Hc. apply negb_true_iff in Hc. exact Hc. }
    rewrite Es, (parse_sign_app sg neg b) by (auto; destruct b; auto).
    apply float_body_parse; auto.
Qed.

Lemma parse_float_none s : parse_float s = None <-> not_a_number s.
Proof.
  unfold not_a_number. split.
  - intros H v Hv. apply parse_float_spec in Hv. congruence.
  - intros H. destruct (parse_float s) as [v|] eqn:E; [|reflexivity].
    exfalso. apply (H v). apply parse_float_spec; auto.
Qed.

Lemma rate_match_spec s run : rate_match s = Some run <-> rate_text s run.
Proof.
  unfold rate_match, rate_text. split.
  - intros H. destruct s as [|c s]; [discriminate|].
    destruct (eqc c "@") eqn:E; [|discriminate]. apply eqc_eq in E; subst c.
    destruct (span_spec rate_char s) as (H1 & H2 & H3).
    destruct (span rate_char s) as [a b]; cbn [fst snd] in *.
    destruct a as [|x a]; [discriminate|]. injection H as <-.
    exists b. split; [rewrite H1; reflexivity|]. split; [easy|]. split.
    + intros y Hy. apply rate_char_iff. rewrite forallb_forall in H2. apply H2; auto.
    + intros y r' ->. apply (class_niff _ _ rate_char_iff). exact H3.
  - intros (rest & -> & Hne & Ha & Hm). simpl.
    rewrite span_app.
    + cbn [fst]. destruct run; [easy|reflexivity].
    + apply forallb_forall. intros x Hx. apply rate_char_iff, Ha, Hx.
    + destruct rest as [|c rest]; [exact I|]. apply (class_niff _ _ rate_char_iff). eapply Hm; reflexivity.
Qed.
