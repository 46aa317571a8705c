(** fnmatch against a declarative reading of patterns. *)
From Verif Require Import Base StrFacts Glob.
From Coq Require Import Lia.
Open Scope Z_scope.

(** ** Specification *)
Definition special (c : ascii) : Prop := c = "*"%char \/ c = "?"%char \/ c = "["%char.

(** a set after '[': an optional '!', one character, then everything up to the first ']' *)
Definition set_body (t : str) : Prop := exists x u, t = x :: u /\ ~ In "]"%char u.
Inductive bracket : str -> bool -> str -> str -> Prop :=
| br_pos t rest : set_body t -> (forall u, t <> "!"%char :: u) -> bracket (t ++ "]"%char :: rest) false t rest
| br_neg t rest : set_body t -> bracket ("!"%char :: t ++ "]"%char :: rest) true t rest.

(** the characters a set describes: single characters and ranges; a '-' at the
    end stands for itself *)
Inductive in_set : str -> ascii -> Prop :=
| is_range_here a b u c : code a <= code c <= code b -> in_set (a :: "-"%char :: b :: u) c
| is_range_later a b u c : in_set u c -> in_set (a :: "-"%char :: b :: u) c
| is_end a c : c = a \/ c = "-"%char -> in_set [a; "-"%char] c
| is_single_here a u : (forall v, u <> "-"%char :: v) -> in_set (a :: u) a
| is_single_later a u c : (forall v, u <> "-"%char :: v) -> in_set u c -> in_set (a :: u) c.
(** every range is the right way round *)
Inductive proper_set : str -> Prop :=
| ps_nil : proper_set []
| ps_range a b u : code a <= code b -> proper_set u -> proper_set (a :: "-"%char :: b :: u)
| ps_end a : proper_set [a; "-"%char]
| ps_single a u : (forall v, u <> "-"%char :: v) -> proper_set u -> proper_set (a :: u).

(** ** the pattern [p] describes the string [s] *)
Inductive describes : str -> str -> Prop :=
| d_end : describes [] []
| d_star p a s : describes p s -> describes ("*"%char :: p) (a ++ s)
| d_any p c s : describes p s -> describes ("?"%char :: p) (c :: s)
| d_lit p c s : ~ special c -> describes p s -> describes (c :: p) (c :: s)
| d_open p s : (forall neg t rest, ~ bracket p neg t rest) -> describes p s -> describes ("["%char :: p) ("["%char :: s)
| d_in p t rest c s : bracket p false t rest -> in_set t c -> describes rest s -> describes ("["%char :: p) (c :: s)
| d_not_in p t rest c s : bracket p true t rest -> ~ in_set t c -> describes rest s -> describes ("["%char :: p) (c :: s).
(** all sets of the pattern are proper *)
Inductive proper : str -> Prop :=
| p_end : proper []
| p_char p c : c <> "["%char -> proper p -> proper (c :: p)
| p_open p : (forall neg t rest, ~ bracket p neg t rest) -> proper p -> proper ("["%char :: p)
| p_set p neg t rest : bracket p neg t rest -> proper_set t -> proper rest -> proper ("["%char :: p).

(** ** Proofs *)
Lemma to_close_spec s a b : to_close s = Some (a, b) <-> s = a ++ "]"%char :: b /\ ~ In "]"%char a.
Proof.
  revert a b. induction s as [|c s IH]; intros a b; cbn [to_close].
  - split; [discriminate|]. intros [H _]. destruct a; discriminate.
  - destruct (eqc c "]") eqn:Ec.
    + apply eqc_eq in Ec. subst c. split.
      * intros [= <- <-]. split; [reflexivity|intros []].
      * intros [H Hn]. destruct a as [|x a]; [injection H as <-; reflexivity|]. injection H as <- ->. exfalso. apply Hn. left. reflexivity.
    + apply eqc_neq in Ec. destruct (to_close s) as [[a' b']|].
      * split.
        -- intros [= <- <-]. destruct (proj1 (IH a' b') eq_refl) as [-> Hn]. split; [reflexivity|]. intros [->|Hin]; auto.
        -- intros [H Hn]. destruct a as [|x a]; [injection H as -> _; contradiction|]. injection H as <- H.
           assert (HH : Some (a', b') = Some (a, b)) by (apply IH; split; [exact H|intros Hin; apply Hn; right; exact Hin]).
           injection HH as -> ->. reflexivity.
      * split; [discriminate|]. intros [H Hn]. destruct a as [|x a]; [injection H as -> _; contradiction|]. injection H as <- H.
        assert (HH : None = Some (a, b)) by (apply IH; split; [exact H|intros Hin; apply Hn; right; exact Hin]). discriminate.
Qed.

(** [set_text] finds the bracket, with the '!' included in the text *)
Lemma set_body_close s1 a b :
  (let '(pre2, s2) := match s1 with
                      | c :: s' => if eqc c "]" then ([c], s') else ([], s1)
                      | [] => ([], s1) end in
   match to_close s2 with None => None | Some (x, y) => Some (pre2 ++ x, y) end) = Some (a, b) <->
  s1 = a ++ "]"%char :: b /\ set_body a.
Proof.
  destruct s1 as [|c s']; cbv beta iota.
  - cbn. split; [discriminate|]. intros [H _]. destruct a; discriminate.
  - destruct (eqc c "]") eqn:Ec.
    + apply eqc_eq in Ec. subst c. destruct (to_close s') as [[x y]|] eqn:Et.
      * apply to_close_spec in Et as [-> Hn]. split.
        -- intros [= <- <-]. split; [reflexivity|]. exists "]"%char, x. auto.
        -- intros [H (z & u & -> & Hu)]. injection H as <- H.
           assert (HH : Some (x, y) = Some (u, b)) by (rewrite <- (proj2 (to_close_spec (x ++ "]"%char :: y) x y) (conj eq_refl Hn)); apply to_close_spec; auto).
           injection HH as -> ->. reflexivity.
      * split; [discriminate|]. intros [H (z & u & -> & Hu)]. injection H as <- H.
        assert (HH : None = Some (u, b)) by (rewrite <- Et; apply to_close_spec; auto). discriminate.
    + apply eqc_neq in Ec.
      destruct (to_close (c :: s')) as [[x y]|] eqn:Et.
      * pose proof Et as Et'. apply to_close_spec in Et' as [Hs Hn]. cbn [app]. split.
        -- intros [= <- <-]. split; [exact Hs|]. destruct x as [|x0 x]; [injection Hs as ->; contradiction|].
           exists x0, x. split; [reflexivity|]. intros Hin. apply Hn. right. exact Hin.
        -- intros [H (z & u & -> & Hu)]. injection H as <- H.
           assert (HH : Some (x, y) = Some (c :: u, b)).
           { rewrite <- (proj2 (to_close_spec (c :: s') x y) (conj Hs Hn)). apply to_close_spec. split; [rewrite H; reflexivity|].
             intros [->|Hin]; [apply Ec; reflexivity|auto]. }
           injection HH as -> ->. reflexivity.
      * split; [discriminate|]. intros [H (z & u & -> & Hu)]. injection H as <- H.
        assert (HH : to_close (c :: s') = Some (c :: u, b)).
        { apply to_close_spec. split; [rewrite H; reflexivity|]. intros [->|Hin]; [apply Ec; reflexivity|auto]. }
        rewrite Et in HH. discriminate.
Qed.

Definition body (s1 : str) : option (str * str) :=
  let '(pre2, s2) := match s1 with
                     | c :: s' => if eqc c "]" then ([c], s') else ([], s1)
                     | [] => ([], s1) end in
  match to_close s2 with None => None | Some (x, y) => Some (pre2 ++ x, y) end.
Lemma set_text_body p : set_text p =
  match p with
  | c :: s' => if eqc c "!" then match body s' with Some (t, r) => Some (c :: t, r) | None => None end else body p
  | [] => None
  end.
Proof.
  unfold set_text, body. destruct p as [|c s']; [reflexivity|].
  destruct (eqc c "!"); cbv beta iota.
  - destruct s' as [|d s'']; cbv beta iota; [reflexivity|].
    destruct (eqc d "]"); cbv beta iota; destruct (to_close _) as [[x y]|]; reflexivity.
  - destruct (eqc c "]"); cbv beta iota; destruct (to_close _) as [[x y]|]; reflexivity.
Qed.
Lemma body_close s1 t rest : body s1 = Some (t, rest) <-> s1 = t ++ "]"%char :: rest /\ set_body t.
Proof. apply set_body_close. Qed.
Lemma bracket_iff p neg t rest : bracket p neg t rest <->
  match p with
  | c :: s' => if eqc c "!" then neg = true /\ body s' = Some (t, rest) else neg = false /\ body p = Some (t, rest)
  | [] => False
  end.
Proof.
  split.
  - intros H. destruct H as [t rest Hb Hn|t rest Hb].
    + destruct Hb as (x & u & -> & Hu). cbn [app]. destruct (eqc x "!") eqn:Ex.
      * apply eqc_eq in Ex. subst x. exfalso. apply (Hn u). reflexivity.
      * split; [reflexivity|]. apply body_close. split; [reflexivity|]. exists x, u. auto.
    + change (eqc "!" "!") with true. cbv iota. split; [reflexivity|]. apply body_close. auto.
  - destruct p as [|c s']; [intros []|]. destruct (eqc c "!") eqn:Ec.
    + apply eqc_eq in Ec. subst c. intros [-> H]. apply body_close in H as [-> Hb]. constructor. exact Hb.
    + apply eqc_neq in Ec. intros [-> H]. apply body_close in H as [Hp Hb]. rewrite Hp. constructor; [exact Hb|].
      intros u ->. injection Hp as -> _. contradiction.
Qed.
Lemma bracket_fun p n t r n' t' r' : bracket p n t r -> bracket p n' t' r' -> n = n' /\ t = t' /\ r = r'.
Proof.
  rewrite !bracket_iff. destruct p as [|c s']; [intros []|]. destruct (eqc c "!"); intros [-> H] [-> H']; rewrite H in H';
    injection H' as -> ->; auto.
Qed.
Lemma bracket_shorter p n t r : bracket p n t r -> (length r < length p)%nat.
Proof. intros H. destruct H; cbn [length]; rewrite app_length; cbn [length]; lia. Qed.
Lemma set_text_spec p :
  match set_text p with
  | Some (text, rest) => exists neg t, bracket p neg t rest /\ text = (if neg : bool then "!"%char :: t else t) /\ t <> [] /\ (neg = false -> forall u, t <> "!"%char :: u)
  | None => forall neg t rest, ~ bracket p neg t rest
  end.
Proof.
  rewrite set_text_body. destruct p as [|c s'].
  - intros neg t rest H. apply bracket_iff in H. exact H.
  - destruct (eqc c "!") eqn:Ec.
    + destruct (body s') as [[t r]|] eqn:Eb.
      * exists true, t. split; [apply bracket_iff; rewrite Ec; auto|]. apply eqc_eq in Ec. subst c. split; [reflexivity|].
        apply body_close in Eb as [_ (x & u & -> & _)]. split; discriminate.
      * intros neg t rest H. apply bracket_iff in H. rewrite Ec in H. destruct H as [_ H]. rewrite Eb in H. discriminate.
    + destruct (body (c :: s')) as [[t r]|] eqn:Eb.
      * exists false, t. split; [apply bracket_iff; rewrite Ec; auto|]. split; [reflexivity|].
        apply body_close in Eb as [Hp (x & u & -> & _)]. split; [discriminate|]. intros _ v [= -> _].
        injection Hp as -> _. discriminate.
      * intros neg t rest H. apply bracket_iff in H. rewrite Ec in H. destruct H as [_ H]. rewrite Eb in H. discriminate.
Qed.

Lemma in_range_iff c a b : in_range c (a, b) = true <-> code a <= code c <= code b.
Proof. unfold in_range. cbn. rewrite andb_true_iff, !Z.leb_le. tauto. Qed.
Lemma in_range_same c a : in_range c (a, a) = true <-> c = a.
Proof.
  rewrite in_range_iff. split; [|intros ->; lia]. intros H. unfold code in H.
  assert (N_of_ascii c = N_of_ascii a) by lia. rewrite <- (ascii_N_embedding c), <- (ascii_N_embedding a). congruence.
Qed.
Lemma not_dash_head (c : ascii) u : eqc c "-" = false -> forall v, c :: u <> "-"%char :: v.
Proof. intros H v [= -> _]. discriminate. Qed.
Lemma set_ranges_spec t :
  match set_ranges t with
  | Ok l => proper_set t /\ forall c, existsb (in_range c) l = true <-> in_set t c
  | Exn e => e = ReError /\ ~ proper_set t
  end.
Proof.
  assert (H : forall n t, (length t <= n)%nat ->
    match set_ranges t with
    | Ok l => proper_set t /\ forall c, existsb (in_range c) l = true <-> in_set t c
    | Exn e => e = ReError /\ ~ proper_set t
    end); [|apply (H (length t)); lia].
  clear t. induction n as [|n IH]; intros t Hn.
  - destruct t; [|cbn in Hn; lia]. cbn. split; [constructor|]. intros c. split; [discriminate|intros H; inversion H].
  - destruct t as [|a [|d u]]; [cbn; split; [constructor|]; intros c; split; [discriminate|intros H; inversion H]| |].
    + cbn [set_ranges]. split; [apply ps_single; [discriminate|constructor]|]. intros c. cbn [existsb]. rewrite orb_false_r, in_range_same. split.
      * intros ->. constructor. discriminate.
      * intros H. inversion H; subst; auto. match goal with H' : in_set [] _ |- _ => inversion H' end.
    + cbn [set_ranges]. destruct (eqc d "-") eqn:Ed.
      * apply eqc_eq in Ed. subst d. destruct u as [|b u].
        -- split; [constructor|]. intros c. cbn [existsb]. rewrite orb_false_r, orb_true_iff, !in_range_same. split.
           ++ intros Hc. apply is_end. tauto.
           ++ intros H. inversion H as [| |? ? Hor| ? ? Hx| ? ? ? Hx]; subst; auto; exfalso; apply (Hx []); reflexivity.
        -- destruct (Z.ltb_spec (code b) (code a)) as [Hlt|Hge].
           ++ split; [reflexivity|]. intros H. inversion H as [|? ? ? Hle| |? ? Hx]; subst; [lia|]. apply (Hx (b :: u)). reflexivity.
           ++ specialize (IH u ltac:(cbn in Hn; lia)). destruct (set_ranges u) as [l|e].
              ** destruct IH as [Hp Hin]. split; [apply ps_range; [lia|exact Hp]|]. intros c. cbn [existsb]. rewrite orb_true_iff, in_range_iff, Hin. split.
                 --- intros [H|H]; [apply is_range_here; exact H|apply is_range_later; exact H].
                 --- intros H. inversion H as [| | |? ? Hx|? ? ? Hx]; subst; auto; exfalso; apply (Hx (b :: u)); reflexivity.
              ** destruct IH as [-> Hnp]. split; [reflexivity|]. intros H. inversion H as [| | |? ? Hx]; subst; [contradiction|apply (Hx (b :: u)); reflexivity].
      * specialize (IH (d :: u) ltac:(cbn in Hn |- *; lia)).
        change (match set_ranges (d :: u) with Ok l => Ok ((a, a) :: l) | Exn e => Exn e end)
          with (match set_ranges (d :: u) with Ok l => Ok ((a, a) :: l) | Exn e => Exn e end).
        pose proof (not_dash_head d u Ed) as Hnd.
        match goal with |- match (match ?x with Ok _ => _ | Exn _ => _ end) with _ => _ end => change x with (set_ranges (d :: u)) end.
        destruct (set_ranges (d :: u)) as [l|e].
        -- destruct IH as [Hp Hin]. split; [apply ps_single; assumption|]. intros c. cbn [existsb]. rewrite orb_true_iff, in_range_same, Hin. split.
           ++ intros [->|H]; [apply is_single_here; exact Hnd|apply is_single_later; assumption].
           ++ intros H. inversion H; subst; auto; discriminate.
        -- destruct IH as [-> Hnp]. split; [reflexivity|]. intros H. inversion H; subst; try discriminate. contradiction.
Qed.

Lemma gmatch_star t s : gmatch (TStar :: t) s = true <-> exists a b, s = a ++ b /\ gmatch t b = true.
Proof.
  cbn [gmatch]. induction s as [|c s IH].
  - rewrite orb_false_r. split; [intros H; exists [], []; auto|]. intros (a & b & H & Hb). symmetry in H. apply app_eq_nil in H as [-> ->]. exact Hb.
  - rewrite orb_true_iff, IH. split.
    + intros [H|(a & b & -> & H)]; [exists [], (c :: s); auto|exists (c :: a), b; auto].
    + intros (a & b & H & Hb). destruct a as [|x a]; [left; cbn in H; subst b; exact Hb|]. injection H as -> ->. right. exists a, b. auto.
Qed.

Lemma not_special c : eqc c "*" = false -> eqc c "?" = false -> eqc c "[" = false -> ~ special c.
Proof. rewrite !eqc_neq. unfold special. tauto. Qed.

Lemma parse_spec f p : (length p <= f)%nat ->
  match parse_glob_fuel f p with
  | Ok toks => proper p /\ forall s, gmatch toks s = true <-> describes p s
  | Exn e => e = ReError /\ ~ proper p
  end.
Proof.
  revert p. induction f as [|f IH]; intros p Hf.
  - destruct p; [|cbn in Hf; lia]. cbn. split; [constructor|]. intros s. destruct s; split; intros H; try discriminate; try constructor; inversion H.
  - destruct p as [|c p]; [cbn; split; [constructor|]; intros s; destruct s; split; intros H; try discriminate; try constructor; inversion H|].
    cbn [parse_glob_fuel]. cbn [length] in Hf.
    destruct (eqc c "*") eqn:E1; [|destruct (eqc c "?") eqn:E2; [|destruct (eqc c "[") eqn:E3]].
    + apply eqc_eq in E1. subst c. specialize (IH p ltac:(lia)). destruct (parse_glob_fuel f p) as [toks|e].
      * destruct IH as [Hp Hm]. split; [constructor; [discriminate|exact Hp]|]. intros s. rewrite gmatch_star. split.
        -- intros (a & b & -> & Hb). constructor. apply Hm. exact Hb.
        -- intros H. inversion H; subst; [eexists _, _; split; [reflexivity|apply Hm; assumption]|].
           exfalso. match goal with Hs : ~ special _ |- _ => apply Hs end. left. reflexivity.
      * destruct IH as [-> Hnp]. split; [reflexivity|]. intros H. inversion H; subst. contradiction.
    + apply eqc_eq in E2. subst c. specialize (IH p ltac:(lia)). destruct (parse_glob_fuel f p) as [toks|e].
      * destruct IH as [Hp Hm]. split; [constructor; [discriminate|exact Hp]|]. intros s. cbn [gmatch]. split.
        -- destruct s as [|x s]; [discriminate|]. intros Hb. constructor. apply Hm. exact Hb.
        -- intros H. inversion H; subst; [apply Hm; assumption|].
           exfalso. match goal with Hs : ~ special _ |- _ => apply Hs end. right. left. reflexivity.
      * destruct IH as [-> Hnp]. split; [reflexivity|]. intros H. inversion H; subst. contradiction.
    + apply eqc_eq in E3. subst c. pose proof (set_text_spec p) as Hset. destruct (set_text p) as [[text rest]|].
      * destruct Hset as (neg & t & Hb & -> & Hne & Hnx). pose proof (bracket_shorter _ _ _ _ Hb) as Hlen.
        assert (Hcl : class_of (if neg then "!"%char :: t else t) =
                      match set_ranges t with Ok l => Ok (TClass neg l) | Exn e => Exn e end).
        { destruct neg; [reflexivity|]. destruct t as [|x u]; [contradiction|]. unfold class_of. destruct (eqc x "!") eqn:Ex; [|reflexivity].
          apply eqc_eq in Ex. subst x. exfalso. apply (Hnx eq_refl u). reflexivity. }
        rewrite Hcl. pose proof (set_ranges_spec t) as Hr. destruct (set_ranges t) as [l|e].
        -- destruct Hr as [Hps Hin]. specialize (IH rest ltac:(lia)). destruct (parse_glob_fuel f rest) as [toks|e].
           ++ destruct IH as [Hp Hm]. split; [eapply p_set; eauto|]. intros s. cbn [gmatch]. split.
              ** destruct s as [|x s]; [discriminate|]. rewrite andb_true_iff. intros [Hc Hs]. apply Hm in Hs. unfold class_match in Hc.
                 destruct neg; cbn [xorb] in Hc.
                 --- eapply d_not_in; eauto. intros Hi. apply Hin in Hi. rewrite Hi in Hc. discriminate.
                 --- eapply d_in; eauto. apply Hin. destruct (existsb (in_range x) l); [reflexivity|discriminate].
              ** intros H. inversion H as [| | |? ? ? Hsp|? ? Hno|? t' r' x ? Hb' Hi' Hd'|? t' r' x ? Hb' Hi' Hd']; subst.
                 --- exfalso. apply Hsp. right. right. reflexivity.
                 --- exfalso. eapply Hno. exact Hb.
                 --- destruct (bracket_fun _ _ _ _ _ _ _ Hb Hb') as (-> & -> & ->). rewrite andb_true_iff. split; [|apply Hm; exact Hd'].
                     unfold class_match. apply Hin in Hi'. rewrite Hi'. reflexivity.
                 --- destruct (bracket_fun _ _ _ _ _ _ _ Hb Hb') as (-> & -> & ->). rewrite andb_true_iff. split; [|apply Hm; exact Hd'].
                     unfold class_match. destruct (existsb (in_range x) l) eqn:Ee; [exfalso; apply Hi', Hin; exact Ee|reflexivity].
           ++ destruct IH as [-> Hnp]. split; [reflexivity|]. intros H. inversion H as [|? ? Hx|? Hno|? n' t' r' Hb']; subst.
              ** apply Hx. reflexivity.
              ** eapply Hno. exact Hb.
              ** destruct (bracket_fun _ _ _ _ _ _ _ Hb Hb') as (-> & -> & ->). contradiction.
        -- destruct Hr as [-> Hnp]. split; [reflexivity|]. intros H. inversion H as [|? ? Hx|? Hno|? n' t' r' Hb']; subst.
              ** apply Hx. reflexivity.
              ** eapply Hno. exact Hb.
              ** destruct (bracket_fun _ _ _ _ _ _ _ Hb Hb') as (-> & -> & ->). contradiction.
      * specialize (IH p ltac:(lia)). destruct (parse_glob_fuel f p) as [toks|e].
        -- destruct IH as [Hp Hm]. split; [apply p_open; assumption|]. intros s. cbn [gmatch]. split.
           ++ destruct s as [|x s]; [discriminate|]. rewrite andb_true_iff, eqc_eq. intros [<- Hs]. apply d_open; [exact Hset|apply Hm; exact Hs].
           ++ intros H. inversion H as [| | |? ? ? Hsp|? ? Hno Hd|? ? ? ? ? Hb'|? ? ? ? ? Hb']; subst.
              ** exfalso. apply Hsp. right. right. reflexivity.
              ** rewrite eqc_refl. apply Hm. exact Hd.
              ** exfalso. eapply Hset. exact Hb'.
              ** exfalso. eapply Hset. exact Hb'.
        -- destruct IH as [-> Hnp]. split; [reflexivity|]. intros H. inversion H as [|? ? Hx|? Hno|? n' t' r' Hb']; subst; [apply Hx; reflexivity|contradiction|eapply Hset; exact Hb'].
    + specialize (IH p ltac:(lia)). pose proof (not_special c E1 E2 E3) as Hns. apply eqc_neq in E1, E2, E3.
      destruct (parse_glob_fuel f p) as [toks|e].
      * destruct IH as [Hp Hm]. split; [constructor; assumption|]. intros s. cbn [gmatch]. split.
        -- destruct s as [|x s]; [discriminate|]. rewrite andb_true_iff, eqc_eq. intros [<- Hs]. apply d_lit; [exact Hns|apply Hm; exact Hs].
        -- intros H. inversion H; subst; try contradiction. rewrite eqc_refl. apply Hm. assumption.
      * destruct IH as [-> Hnp]. split; [reflexivity|]. intros H. inversion H; subst; contradiction.
Qed.

Lemma fnmatch_spec name pat :
  (proper pat -> exists b, fnmatch name pat = Ok b /\ (b = true <-> describes pat name)) /\
  (~ proper pat -> fnmatch name pat = Exn ReError).
Proof.
  unfold fnmatch, parse_glob. pose proof (parse_spec (length pat) pat ltac:(lia)) as H.
  destruct (parse_glob_fuel (length pat) pat) as [toks|e].
  - destruct H as [Hp Hm]. split; [|contradiction]. intros _. eexists. split; [reflexivity|]. apply Hm.
  - destruct H as [-> Hnp]. split; [contradiction|reflexivity].
Qed.
Lemma plain_proper p : ~ In "["%char p -> proper p.
Proof. induction p as [|c p IH]; intros H; constructor; [intros ->; apply H; left; reflexivity|apply IH; intros Hi; apply H; right; exact Hi]. Qed.
Lemma literal_describes p s : Forall (fun c => ~ special c) p -> (describes p s <-> s = p).
Proof.
  intros H. revert s. induction H as [|c p Hc Hp IH]; intros s.
  - split; [intros Hd; inversion Hd; reflexivity|intros ->; constructor].
  - split.
    + intros Hd. inversion Hd; subst; try (exfalso; apply Hc; unfold special; tauto). f_equal. apply IH. assumption.
    + intros ->. apply d_lit; [exact Hc|]. apply IH. reflexivity.
Qed.
