From Verif Require Import Base JsonSpec.

(** ** a text has one meaning *)
Lemma split_at {A} (bad : A -> Prop) : forall (a b r r' : list A), a ++ r = b ++ r' -> Forall bad a -> Forall bad b ->
  match r with [] => True | c :: _ => ~ bad c end -> match r' with [] => True | c :: _ => ~ bad c end -> a = b /\ r = r'.
Proof.
  induction a as [|x a IH]; intros [|y b] r r' E Ha Hb Hr Hr'; cbn in E.
  - auto.
  - subst r. inversion Hb; subst. contradiction.
  - subst r'. inversion Ha; subst. contradiction.
  - injection E as -> E. inversion Ha; inversion Hb; subst. destruct (IH b r r' E) as [-> ->]; auto.
Qed.
Lemma ws_fun s r r' : ws s r -> ws s r' -> r = r'.
Proof. intros (sp & -> & H1 & H2) (sp' & E & H1' & H2'). exact (proj2 (split_at space _ _ _ _ E H1 H1' H2 H2')). Qed.
Lemma hex_fun c x x' : hex c x -> hex c x' -> x = x'.
Proof. intros H H'. destruct H; inversion H'; subst; lia. Qed.
Lemma shorts_cases n z : In (n, z) shorts -> exists c, B n = [c] /\ c <> "u"%char /\ forall n', B n' = [c] -> forall z', In (n', z') shorts -> z' = z.
Proof.
  assert (Hinj : forall n n', B n = B n' -> n = n'). { intros a b H. unfold B in H. rewrite <- (string_of_list_ascii_of_string a), <- (string_of_list_ascii_of_string b), H. reflexivity. }
  intros H. assert (Hd : forall z', In (n, z') shorts -> z' = z).
  { intros z' H'. unfold shorts in *. cbn in H, H'. repeat (destruct H as [H|H]; [injection H as <- <-; repeat (destruct H' as [H'|H']; [first [discriminate H'|injection H' as <-; reflexivity]|]); contradiction|]). contradiction. }
  assert (Hc : exists c, B n = [c] /\ c <> "u"%char).
  { unfold shorts in H. cbn in H. repeat (destruct H as [H|H]; [injection H as <- <-; eexists; split; [reflexivity|discriminate]|]). contradiction. }
  destruct Hc as (c & Hc & Hu). exists c. split; [exact Hc|]. split; [exact Hu|]. intros n' Hn'. rewrite <- Hc in Hn'. apply Hinj in Hn'. subst n'. exact Hd.
Qed.
Lemma units_fun us s r : units us s r -> forall us' r', units us' s r' -> us = us' /\ r = r'.
Proof.
  assert (Hb : forall c : ascii, byte c <> 92 -> c <> "\"%char) by (intros c H ->; apply H; reflexivity).
  assert (Hq : forall c : ascii, byte c <> 34 -> c <> """"%char) by (intros c H ->; apply H; reflexivity).
  induction 1 as [r|c us s r H1 H2 H3 H IH|n z us s r Hn H IH|a b c d x y z w us s r Ha Hb' Hc Hd H IH]; intros us' r' H'.
  - inversion H' as [r0 E|c us0 s0 r0 H1 H2 H3 H E|n z us0 s0 r0 Hn H E|a b c d x y z w us0 s0 r0 Ha Hb' Hc Hd H E]; subst; try discriminate.
    + auto.
    + exfalso. apply H2. reflexivity.
  - inversion H' as [r0 E|c' us0 s0 r0 H1' H2' H3' H0 E|n z us0 s0 r0 Hn H0 E|a b c' d x y z w us0 s0 r0 Ha Hb' Hc Hd H0 E]; subst.
    + exfalso. apply H2. reflexivity.
    + destruct (IH _ _ H0) as [-> ->]. auto.
    + exfalso. apply H3. reflexivity.
    + exfalso. apply H3. reflexivity.
  - destruct (shorts_cases n z Hn) as (k & Hk & Hku & Huniq). rewrite Hk in H'. cbn in H'.
    inversion H' as [r0 E|c' us0 s0 r0 H1' H2' H3' H0 E|n' z' us0 s0 r0 Hn' H0 E|a b c' d x y z' w us0 s0 r0 Ha Hb' Hc Hd H0 E]; subst.
    + exfalso. apply H3'. reflexivity.
    + destruct (shorts_cases n' z' Hn') as (k' & Hk' & _ & _). match goal with E : B n' ++ _ = _ |- _ => rewrite Hk' in E; cbn in E; injection E as -> -> end. destruct (IH _ _ H0) as [-> ->].
      rewrite (Huniq n' Hk' z' Hn'). auto.
    + exfalso. apply Hku. reflexivity.
  - inversion H' as [r0 E|c' us0 s0 r0 H1' H2' H3' H0 E|n' z' us0 s0 r0 Hn' H0 E|a' b' c' d' x' y' z' w' us0 s0 r0 Ha' Hb'' Hc' Hd' H0 E]; subst.
    + exfalso. apply H3'. reflexivity.
    + destruct (shorts_cases n' z' Hn') as (k' & Hk' & Hk'' & _). match goal with E : B n' ++ _ = _ |- _ => rewrite Hk' in E; cbn in E; injection E as E1 E2 end. exfalso. apply Hk''. congruence.
    + destruct (IH _ _ H0) as [-> ->]. rewrite (hex_fun _ _ _ Ha Ha'), (hex_fun _ _ _ Hb' Hb''), (hex_fun _ _ _ Hc Hc'), (hex_fun _ _ _ Hd Hd'). auto.
Qed.
Lemma number_chars t : number t -> Forall number_char t /\ match t with c :: _ => digit c \/ c = "-"%char | [] => False end.
Proof.
  intros (sg & ip & fp & ep & -> & Hs & Hi & Hf & He).
  assert (Hd : forall l, Forall digit l -> Forall number_char l) by (intros l H; eapply Forall_impl; [exact H|]; intros; left; assumption).
  assert (Hn : forall c, In c (B "+-.eE") -> number_char c) by (intros c H; right; exact H).
  split.
  - repeat (apply Forall_app; split).
    + destruct Hs as [->| ->]; [constructor|]. constructor; [|constructor]. apply Hn. vm_compute. tauto.
    + destruct Hi as [->|[[_ Hi] _]]; [|auto]. constructor; [|constructor]. left. split; vm_compute; discriminate.
    + destruct Hf as [->|(ds & -> & _ & Hf)]; [constructor|]. constructor; [apply Hn; vm_compute; tauto|auto].
    + destruct He as [->|(e & sg' & ds & -> & He & Hg & _ & Hds)]; [constructor|]. repeat (apply Forall_app; split); [| |auto].
      * destruct He as [->| ->]; (constructor; [|constructor]); apply Hn; vm_compute; tauto.
      * destruct Hg as [->|[->| ->]]; [constructor|..]; (constructor; [|constructor]); apply Hn; vm_compute; tauto.
  - destruct Hs as [->| ->]; [|right; reflexivity]. cbn. destruct Hi as [->|[[Hne Hi] H]]; [left; split; vm_compute; discriminate|]. destruct ip; [contradiction|]. inversion Hi; subst. left. assumption.
Qed.
Lemma word_chars w : In w [B "true"; B "false"; B "null"] -> Forall letter w /\ match w with c :: _ => letter c | [] => False end.
Proof. intros H. cbn in H. destruct H as [<-|[<-|[<-|[]]]]; (unfold letter; split; [repeat (apply Forall_cons; split); [left; split; vm_compute; discriminate..|constructor]|left; split; vm_compute; discriminate]). Qed.
(** the first character of a value *)
Definition kind (v : json) (c : ascii) : Prop :=
  match v with
  | SText _ => c = """"%char | SNum _ => digit c \/ c = "-"%char | SWord _ => letter c | SList _ => c = "["%char | SDict _ => c = "{"%char
  end.
Lemma value_kind v s r : value v s r -> match s with c :: _ => kind v c | [] => False end.
Proof.
  intros H. destruct H as [us s r H|t r H Hr|w r H Hr|s r H|l s r H|s r H|l s r H]; try reflexivity.
  - destruct (number_chars t H) as [_ Hk]. destruct t; [contradiction|]. exact Hk.
  - destruct (word_chars w H) as [_ Hk]. destruct w; [contradiction|]. exact Hk.
Qed.
Lemma kind_byte v c : kind v c ->
  match v with SText _ => byte c = 34 | SNum _ => 48 <= byte c <= 57 \/ byte c = 45 | SWord _ => 97 <= byte c <= 122 \/ 65 <= byte c <= 90
  | SList _ => byte c = 91 | SDict _ => byte c = 123 end.
Proof. destruct v; cbn [kind]; unfold digit, letter; intros H; try (subst c; reflexivity); [|exact H]. destruct H as [H| ->]; [left; exact H|right; reflexivity]. Qed.
Lemma kinds v v' c : kind v c -> kind v' c -> match v, v' with SText _, SText _ | SNum _, SNum _ | SWord _, SWord _ | SList _, SList _ | SDict _, SDict _ => True | _, _ => False end.
Proof. intros H H'. apply kind_byte in H, H'. destruct v, v'; try exact I; lia. Qed.
Scheme value_mind := Minimality for value Sort Prop
  with items_mind := Minimality for items Sort Prop
  with members_mind := Minimality for members Sort Prop.
Combined Scheme json_mind from value_mind, items_mind, members_mind.
Lemma not_close v s r : value v s r -> forall t, s <> B "]" ++ t /\ s <> B "}" ++ t.
Proof.
  intros H t. apply value_kind in H. split; intros ->; apply kind_byte in H.
  - assert (E : byte "]"%char = 93) by reflexivity. rewrite E in H. destruct v; lia.
  - assert (E : byte "}"%char = 125) by reflexivity. rewrite E in H. destruct v; lia.
Qed.
Lemma json_fun :
  (forall v s r, value v s r -> forall v' r', value v' s r' -> v = v' /\ r = r') /\
  (forall l s r, items l s r -> forall l' r', items l' s r' -> l = l' /\ r = r') /\
  (forall l s r, members l s r -> forall l' r', members l' s r' -> l = l' /\ r = r').
Proof.
  apply json_mind.
  - intros us s r Hu v' r' H'. pose proof (value_kind _ _ _ H') as Hk. cbn in Hk.
    assert (Hv : match v' with SText _ => True | _ => False end) by (apply (kinds (SText us) v' """"%char eq_refl Hk)).
    inversion H' as [us' s' r0 Hu' E1 E2|t r0 ? ? E1 E2| | | | |]; subst; try contradiction.
    destruct (units_fun _ _ _ Hu _ _ Hu') as [-> ->]. auto.
  - intros t r Ht Hr v' r' H'. destruct (number_chars t Ht) as [Hc Hk]. pose proof (value_kind _ _ _ H') as Hk'. destruct t as [|c t]; [contradiction|]. cbn in Hk'.
    pose proof (kinds (SNum (c :: t)) v' c Hk Hk') as Hv. inversion H' as [|t' r0 Ht' Hr' E1 E2| | | | |]; subst; try contradiction.
    destruct (number_chars t' Ht') as [Hc' _].
    destruct (split_at number_char _ (c :: t) _ r E2 Hc' Hc Hr' Hr) as [-> ->]. auto.
  - intros w r Hw Hr v' r' H'. destruct (word_chars w Hw) as [Hc Hk]. pose proof (value_kind _ _ _ H') as Hk'. destruct w as [|c w]; [contradiction|]. cbn in Hk'.
    pose proof (kinds (SWord (c :: w)) v' c Hk Hk') as Hv. inversion H' as [| |w' r0 Hw' Hr' E1 E2| | | |]; subst; try contradiction.
    destruct (word_chars w' Hw') as [Hc' _].
    destruct (split_at letter _ (c :: w) _ r E2 Hc' Hc Hr' Hr) as [-> ->]. auto.
  - intros s r Hw v' r' H'. pose proof (value_kind _ _ _ H') as Hk. cbn in Hk.
    pose proof (kinds (SList []) v' "["%char eq_refl Hk) as Hv. inversion H' as [| | |s' r0 Hw' E1 E2|l s' r0 Hi E1 E2| |]; subst; try contradiction.
    + pose proof (ws_fun _ _ _ Hw Hw') as E. injection E as ->. auto.
    + exfalso. inversion Hi as [v0 a b e f W1 V W2|v0 l0 a b e g f W1 V W2 I]; subst; rewrite (ws_fun _ _ _ W1 Hw) in V; exact (proj1 (not_close _ _ _ V _) eq_refl).
  - intros l s r Hi IH v' r' H'. pose proof (value_kind _ _ _ H') as Hk. cbn in Hk.
    pose proof (kinds (SList l) v' "["%char eq_refl Hk) as Hv. inversion H' as [| | |s' r0 Hw' E1 E2|l' s' r0 Hi' E1 E2| |]; subst; try contradiction.
    + exfalso. inversion Hi as [v0 a b e f W1 V W2|v0 l0 a b e g f W1 V W2 I]; subst; rewrite (ws_fun _ _ _ W1 Hw') in V; exact (proj1 (not_close _ _ _ V _) eq_refl).
    + destruct (IH _ _ Hi') as [-> ->]. auto.
  - intros s r Hw v' r' H'. pose proof (value_kind _ _ _ H') as Hk. cbn in Hk.
    pose proof (kinds (SDict []) v' "{"%char eq_refl Hk) as Hv. inversion H' as [| | | | |s' r0 Hw' E1 E2|l s' r0 Hi E1 E2]; subst; try contradiction.
    + pose proof (ws_fun _ _ _ Hw Hw') as E. injection E as ->. auto.
    + exfalso. inversion Hi; subst; match goal with W : ws s (B """" ++ _) |- _ => pose proof (ws_fun _ _ _ W Hw) as E; discriminate E end.
  - intros l s r Hi IH v' r' H'. pose proof (value_kind _ _ _ H') as Hk. cbn in Hk.
    pose proof (kinds (SDict l) v' "{"%char eq_refl Hk) as Hv. inversion H' as [| | | | |s' r0 Hw' E1 E2|l' s' r0 Hi' E1 E2]; subst; try contradiction.
    + exfalso. inversion Hi; subst; match goal with W : ws s (B """" ++ _) |- _ => pose proof (ws_fun _ _ _ W Hw') as E; discriminate E end.
    + destruct (IH _ _ Hi') as [-> ->]. auto.
  - intros v s s1 s2 r W1 V IH W2 l' r' H'. inversion H' as [v0 a b e f W1' V' W2'|v0 l0 a b e g f W1' V' W2' I]; subst.
    + rewrite <- (ws_fun _ _ _ W1 W1') in V'. destruct (IH _ _ V') as [-> ->]. pose proof (ws_fun _ _ _ W2 W2') as E. injection E as ->. auto.
    + rewrite <- (ws_fun _ _ _ W1 W1') in V'. destruct (IH _ _ V') as [-> ->]. pose proof (ws_fun _ _ _ W2 W2') as E. discriminate E.
  - intros v l s s1 s2 s3 r W1 V IH W2 I IHl l' r' H'. inversion H' as [v0 a b e f W1' V' W2'|v0 l0 a b e g f W1' V' W2' I']; subst.
    + rewrite <- (ws_fun _ _ _ W1 W1') in V'. destruct (IH _ _ V') as [-> ->]. pose proof (ws_fun _ _ _ W2 W2') as E. discriminate E.
    + rewrite <- (ws_fun _ _ _ W1 W1') in V'. destruct (IH _ _ V') as [-> ->]. pose proof (ws_fun _ _ _ W2 W2') as E. injection E as <-. destruct (IHl _ _ I') as [-> ->]. auto.
  - intros us v s s1 s2 s3 s4 s5 r W1 U W2 W3 V IH W4 l' r' H'.
    inversion H' as [us' v' x0 x1 x2 x3 x4 x5 x6 W1' U' W2' W3' V' W4' |us' v' l0 x0 x1 x2 x3 x4 x5 x6 x7 W1' U' W2' W3' V' W4' I']; subst;
      (pose proof (ws_fun _ _ _ W1 W1') as E; injection E as <-); destruct (units_fun _ _ _ U _ _ U') as [-> ->];
      (pose proof (ws_fun _ _ _ W2 W2') as E; injection E as <-); rewrite <- (ws_fun _ _ _ W3 W3') in V'; destruct (IH _ _ V') as [-> ->];
      pose proof (ws_fun _ _ _ W4 W4') as E; [injection E as <-; auto|discriminate E].
  - intros us v l s s1 s2 s3 s4 s5 s6 r W1 U W2 W3 V IH W4 I IHl l' r' H'.
    inversion H' as [us' v' x0 x1 x2 x3 x4 x5 x6 W1' U' W2' W3' V' W4' |us' v' l0 x0 x1 x2 x3 x4 x5 x6 x7 W1' U' W2' W3' V' W4' I']; subst;
      (pose proof (ws_fun _ _ _ W1 W1') as E; injection E as <-); destruct (units_fun _ _ _ U _ _ U') as [-> ->];
      (pose proof (ws_fun _ _ _ W2 W2') as E; injection E as <-); rewrite <- (ws_fun _ _ _ W3 W3') in V'; destruct (IH _ _ V') as [-> ->];
      pose proof (ws_fun _ _ _ W4 W4') as E; [discriminate E|injection E as <-]. destruct (IHl _ _ I') as [-> ->]. auto.
Qed.
Theorem means_fun s v v' : means s v -> means s v' -> v = v'.
Proof.
  intros (s1 & s2 & W & V & _) (s1' & s2' & W' & V' & _). rewrite <- (ws_fun _ _ _ W W') in V'. exact (proj1 (proj1 json_fun _ _ _ V _ _ V')).
Qed.
