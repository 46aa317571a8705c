From Verif Require Import Base StrFacts Num Process Service Http Json JsonSpec JsonFacts.
Ltac Zify.zify_post_hook ::= Z.to_euclidean_division_equations.

(** ** UTF-8 *)
Lemma code_range c : 0 <= code c < 256.
Proof. unfold code. pose proof (N_ascii_bounded c). lia. Qed.
Lemma code_chr z : 0 <= z < 256 -> code (chr z) = z.
Proof. intros H. unfold code, chr. rewrite N_ascii_embedding by lia. lia. Qed.
Lemma code_inj a b : code a = code b -> a = b.
Proof. unfold code. intros H. rewrite <- (ascii_N_embedding a), <- (ascii_N_embedding b). f_equal. lia. Qed.
Lemma bytes_two u : 128 <= u < 2048 -> utf8_bytes u = [192 + u / 64; 128 + u mod 64].
Proof. intros H. unfold utf8_bytes. destruct (Z.ltb_spec u 128); [lia|]. destruct (Z.ltb_spec u 2048); [reflexivity|lia]. Qed.
Lemma bytes_three u : 2048 <= u < 65536 -> utf8_bytes u = [224 + u / 4096; 128 + u / 64 mod 64; 128 + u mod 64].
Proof. intros H. unfold utf8_bytes. destruct (Z.ltb_spec u 128); [lia|]. destruct (Z.ltb_spec u 2048); [lia|]. destruct (Z.ltb_spec u 65536); [reflexivity|lia]. Qed.
Lemma bytes_four u : 65536 <= u -> utf8_bytes u = [240 + u / 262144; 128 + u / 4096 mod 64; 128 + u / 64 mod 64; 128 + u mod 64].
Proof. intros H. unfold utf8_bytes. destruct (Z.ltb_spec u 128); [lia|]. destruct (Z.ltb_spec u 2048); [lia|]. destruct (Z.ltb_spec u 65536); [lia|reflexivity]. Qed.
Lemma cont_spec c : cont c = true <-> 128 <= code c < 192.
Proof. unfold cont. lia. Qed.
Lemma utf8_sound n : forall s us, (length s <= n)%nat -> utf8 s = Some us -> utf8_of s us.
Proof.
  induction n as [|n IH]; intros s us Hn H.
  { destruct s; [|cbn in Hn; lia]. cbn in H. injection H as <-. split; [constructor|reflexivity]. }
  destruct s as [|a s1]; [cbn in H; injection H as <-; split; [constructor|reflexivity]|]. cbn [utf8] in H. pose proof (code_range a) as Ra.
  assert (Hstep : forall u pre rest, 0 <= u < 1114112 -> map code pre = utf8_bytes u -> (length rest <= n)%nat -> a :: s1 = pre ++ rest -> cons u <$> utf8 rest = Some us -> utf8_of (a :: s1) us).
  { intros u pre rest Hu Hp Hl -> Hr. destruct (utf8 rest) as [vs|] eqn:E; [|discriminate]. cbn in Hr. injection Hr as <-. destruct (IH rest vs Hl E) as [H1 H2].
    split; [constructor; assumption|]. rewrite map_app. cbn [flat_map]. f_equal; [exact Hp|exact H2]. }
  destruct (Z.ltb_spec (code a) 128) as [A1|A1].
  { apply (Hstep (code a) [a] s1); [lia| |cbn in Hn; lia|reflexivity|exact H]. unfold utf8_bytes. destruct (Z.ltb_spec (code a) 128); [reflexivity|lia]. }
  destruct (Z.ltb_spec (code a) 194) as [A2|A2]; [discriminate|]. destruct s1 as [|b s2]; [discriminate|]. pose proof (code_range b) as Rb.
  destruct (cont b) eqn:Cb; [|discriminate]. apply cont_spec in Cb. cbn [negb] in H. destruct (Z.ltb_spec (code a) 224) as [A3|A3].
  { set (u := (code a - 192) * 64 + (code b - 128)) in *. apply (Hstep u [a; b] s2); [unfold u; lia| |cbn in Hn; lia|reflexivity|exact H].
    rewrite bytes_two by (unfold u; lia). cbn [map]. unfold u. repeat f_equal; lia. }
  destruct s2 as [|c s3]; [discriminate|]. destruct (cont c) eqn:Cc; [|discriminate]. apply cont_spec in Cc. cbn [negb] in H. destruct (Z.ltb_spec (code a) 240) as [A4|A4].
  { destruct ((code a =? 224) && (code b <? 160)) eqn:O1; [discriminate|]. set (u := (code a - 224) * 4096 + (code b - 128) * 64 + (code c - 128)) in *.
    assert (Hu : 2048 <= u < 65536) by (unfold u; lia).
    apply (Hstep u [a; b; c] s3); [lia| |cbn in Hn; lia|reflexivity|exact H]. rewrite bytes_three by exact Hu. cbn [map]. unfold u. repeat f_equal; lia. }
  destruct s3 as [|d s4]; [discriminate|]. destruct (cont d) eqn:Cd; [|discriminate]. apply cont_spec in Cd. cbn [negb] in H.
  destruct ((code a =? 240) && (code b <? 144)) eqn:O2; [discriminate|]. destruct ((code a =? 244) && (143 <? code b)) eqn:O3; [discriminate|]. destruct (Z.ltb_spec 244 (code a)) as [A5|A5]; [discriminate|].
  set (u := (code a - 240) * 262144 + (code b - 128) * 4096 + (code c - 128) * 64 + (code d - 128)) in *.
  assert (Hu : 65536 <= u < 1114112) by (unfold u; lia).
  apply (Hstep u [a; b; c; d] s4); [lia| |cbn in Hn; lia|reflexivity|exact H]. rewrite bytes_four by apply Hu. cbn [map]. unfold u. repeat f_equal; lia.
Qed.
Lemma utf8_complete us : forall s, utf8_of s us -> utf8 s = Some us.
Proof.
  induction us as [|u us IH]; intros s [Hr Hs]; [destruct s; [reflexivity|discriminate]|]. inversion Hr as [|? ? Hu Hus]; subst. cbn [flat_map] in Hs.
  assert (Hrest : forall rest, map code rest = flat_map utf8_bytes us -> cons u <$> utf8 rest = Some (u :: us)) by (intros rest E; rewrite (IH rest (conj Hus E)); reflexivity).
  change (map code s = utf8_bytes u ++ flat_map utf8_bytes us) in Hs.
  destruct (Z_lt_le_dec u 128) as [U1|U1].
  { unfold utf8_bytes in Hs at 1. destruct (Z.ltb_spec u 128); [|lia]. destruct s as [|a s1]; [discriminate|]. cbn in Hs. injection Hs as Ha Hs. cbn [utf8]. rewrite Ha.
    destruct (Z.ltb_spec u 128); [|lia]. apply Hrest, Hs. }
  destruct (Z_lt_le_dec u 2048) as [U2|U2].
  { rewrite bytes_two in Hs by lia. destruct s as [|a [|b s1]]; [discriminate|destruct us; discriminate|]. cbn in Hs. injection Hs as Ha Hb Hs. cbn [utf8]. 
    assert (Cb : cont b = true) by (apply cont_spec; lia). rewrite Cb. cbn [negb].
    destruct (Z.ltb_spec (code a) 128); [lia|]. destruct (Z.ltb_spec (code a) 194); [lia|]. destruct (Z.ltb_spec (code a) 224); [|lia].
    replace ((code a - 192) * 64 + (code b - 128)) with u by lia. apply Hrest, Hs. }
  destruct (Z_lt_le_dec u 65536) as [U3|U3].
  { rewrite bytes_three in Hs by lia. destruct s as [|a [|b [|c s1]]]; [discriminate..|]. cbn in Hs. injection Hs as Ha Hb Hc Hs. cbn [utf8].
    assert (Cb : cont b = true) by (apply cont_spec; lia). assert (Cc : cont c = true) by (apply cont_spec; lia). rewrite Cb, Cc. cbn [negb].
    destruct (Z.ltb_spec (code a) 128); [lia|]. destruct (Z.ltb_spec (code a) 194); [lia|]. destruct (Z.ltb_spec (code a) 224); [lia|]. destruct (Z.ltb_spec (code a) 240); [|lia].
    destruct ((code a =? 224) && (code b <? 160)) eqn:O1; [lia|].
    replace ((code a - 224) * 4096 + (code b - 128) * 64 + (code c - 128)) with u by lia. apply Hrest, Hs. }
  rewrite bytes_four in Hs by lia. destruct s as [|a [|b [|c [|d s1]]]]; [discriminate..|]. cbn in Hs. injection Hs as Ha Hb Hc Hd Hs. cbn [utf8].
  assert (Cb : cont b = true) by (apply cont_spec; lia). assert (Cc : cont c = true) by (apply cont_spec; lia). assert (Cd : cont d = true) by (apply cont_spec; lia). rewrite Cb, Cc, Cd. cbn [negb].
  destruct (Z.ltb_spec (code a) 128); [lia|]. destruct (Z.ltb_spec (code a) 194); [lia|]. destruct (Z.ltb_spec (code a) 224); [lia|]. destruct (Z.ltb_spec (code a) 240); [lia|].
  destruct ((code a =? 240) && (code b <? 144)) eqn:O2; [lia|]. destruct ((code a =? 244) && (143 <? code b)) eqn:O3; [lia|]. destruct (Z.ltb_spec 244 (code a)); [lia|].
  replace ((code a - 240) * 262144 + (code b - 128) * 4096 + (code c - 128) * 64 + (code d - 128)) with u by lia. apply Hrest, Hs.
Qed.
Theorem utf8_iff s us : utf8 s = Some us <-> utf8_of s us.
Proof. split; [apply (utf8_sound (length s)); lia|apply utf8_complete]. Qed.
