From Verif Require Import Base StrFacts LineSpec Num Decimal Process Service Http Json JsonSpec JsonFacts JsonDump.
Ltac Zify.zify_post_hook ::= Z.to_euclidean_division_equations.

(** ** strings *)
Lemma hexdigit_hex d : 0 <= d < 16 -> hex (hexdigit d) d.
Proof.
  intros H. unfold hexdigit. destruct (Z.ltb_spec d 10).
  - replace d with (byte (chr (48 + d)) - 48) at 2 by (change (code (chr (48 + d)) - 48 = d); rewrite code_chr; lia).
    apply h_digit. change (48 <= code (chr (48 + d)) <= 57). rewrite code_chr; lia.
  - replace d with (byte (chr (87 + d)) - 87) at 2 by (change (code (chr (87 + d)) - 87 = d); rewrite code_chr; lia).
    apply h_lower. change (97 <= code (chr (87 + d)) <= 102). rewrite code_chr; lia.
Qed.
Lemma hex4_units n us s r : 0 <= n < 65536 -> units us s r -> units (n :: us) (B "\u" ++ hex4 n ++ s) r.
Proof.
  intros Hn H. replace n with ((((n / 4096) * 16 + n / 256 mod 16) * 16 + n / 16 mod 16) * 16 + n mod 16) at 1 by lia.
  apply u_hex; try (apply hexdigit_hex; lia). exact H.
Qed.
Lemma escape_units u : 0 <= u < 1114112 -> exists ws, utf16 [u] ws /\ forall us s r, units us s r -> units (ws ++ us) (escape u ++ s) r.
Proof.
  intros Hu. assert (H16 : u < 65536 -> utf16 [u] [u]) by (intros H; constructor; [lia|constructor]).
  assert (Hs : forall n, In (n, u) shorts -> u < 65536 -> exists ws, utf16 [u] ws /\ forall us s r, units us s r -> units (ws ++ us) ((B "\" ++ B n) ++ s) r).
  { intros n Hn Hlt. exists [u]. split; [apply H16, Hlt|]. intros us s r H. rewrite <- app_assoc. apply u_short; assumption. }
  unfold escape.
  destruct (Z.eqb_spec u 34) as [->|N1]; [apply (Hs """"%string); [cbn; tauto|lia]|].
  destruct (Z.eqb_spec u 92) as [->|N2]; [apply (Hs "\"%string); [cbn; tauto|lia]|].
  destruct (Z.eqb_spec u 8) as [->|N3]; [apply (Hs "b"%string); [cbn; tauto|lia]|].
  destruct (Z.eqb_spec u 12) as [->|N4]; [apply (Hs "f"%string); [cbn; tauto|lia]|].
  destruct (Z.eqb_spec u 10) as [->|N5]; [apply (Hs "n"%string); [cbn; tauto|lia]|].
  destruct (Z.eqb_spec u 13) as [->|N6]; [apply (Hs "r"%string); [cbn; tauto|lia]|].
  destruct (Z.eqb_spec u 9) as [->|N7]; [apply (Hs "t"%string); [cbn; tauto|lia]|].
  destruct ((32 <=? u) && (u <=? 126)) eqn:E1.
  - exists [u]. split; [apply H16; lia|]. intros us s r H. assert (Hc : byte (chr u) = u) by (apply code_chr; lia).
    cbn [app]. rewrite <- Hc at 1. apply u_plain; rewrite ?Hc; try lia. exact H.
  - destruct (Z.ltb_spec u 65536) as [E2|E2].
    + exists [u]. split; [apply H16; lia|]. intros us s r H. rewrite <- app_assoc. apply hex4_units; [lia|exact H].
    + set (h := 55296 + (u - 65536) / 1024 mod 1024). set (l := 56320 + (u - 65536) mod 1024). exists [h; l]. split.
      * replace u with (65536 + (h - 55296) * 1024 + (l - 56320)) by (unfold h, l; lia). apply s_pair; [unfold h; lia|unfold l; lia|constructor].
      * intros us s r H. rewrite <- !app_assoc. apply hex4_units; [unfold h; lia|]. apply hex4_units; [unfold l; lia|exact H].
Qed.
Lemma utf16_app a b wa wb : utf16 a wa -> utf16 b wb -> utf16 (a ++ b) (wa ++ wb).
Proof. intros H Hb. induction H; cbn; [exact Hb|constructor; assumption|apply s_pair; assumption]. Qed.
Lemma escapes us : Forall (fun u => 0 <= u < 1114112) us -> exists w, utf16 us w /\ forall r, units w (flat_map escape us ++ B """" ++ r) r.
Proof.
  induction 1 as [|u us Hu _ (w & Hw & IH)]; [exists []; split; [constructor|intros r; constructor]|].
  destruct (escape_units u Hu) as (w0 & Hw0 & H0). exists (w0 ++ w). split; [apply (utf16_app [u] us); assumption|]. intros r. cbn [flat_map]. rewrite <- app_assoc. apply H0, IH.
Qed.
Lemma ascii_utf8 s : forallb (fun c => code c <? 128) s = true -> utf8 s = Some (map code s).
Proof.
  induction s as [|c s IH]; [reflexivity|]. cbn [forallb]. intros H. apply andb_true_iff in H as [Hc Hs]. cbn [utf8 map]. rewrite Hc, (IH Hs). reflexivity.
Qed.
Lemma flat_map_map {A C D} (f : A -> C) (g : C -> list D) l : flat_map (fun x => g (f x)) l = flat_map g (map f l).
Proof. induction l as [|x l IH]; cbn; [reflexivity|]. rewrite IH. reflexivity. Qed.
Lemma json_text_utf8 s : json_text s = match utf8 s with Some us => Ok (B """" ++ flat_map escape us ++ B """") | None => Exn UnicodeDecodeError end.
Proof. unfold json_text. destruct (forallb _ s) eqn:E; [|reflexivity]. rewrite (ascii_utf8 s E), flat_map_map. reflexivity. Qed.
Lemma json_text_ok s us : utf8_of s us -> exists w t, utf16 us w /\ json_text s = Ok t /\ forall r, value (SText w) (t ++ r) r.
Proof.
  intros H. rewrite json_text_utf8. pose proof H as [Hr _]. apply utf8_iff in H. rewrite H. destruct (escapes us Hr) as (w & Hw & Hu).
  exists w, (B """" ++ flat_map escape us ++ B """"). split; [exact Hw|]. split; [reflexivity|]. intros r. rewrite <- !app_assoc. apply v_text, Hu.
Qed.
Lemma json_text_bad s : (forall us, ~ utf8_of s us) -> json_text s = Exn UnicodeDecodeError.
Proof. intros H. rewrite json_text_utf8. destruct (utf8 s) as [us|] eqn:E; [|reflexivity]. apply utf8_iff in E. destruct (H us E). Qed.
Lemma utf16_fun us w w' : utf16 us w -> utf16 us w' -> w = w'.
Proof.
  intros H. revert w'. induction H as [|u us w Hu H IH|h l us w Hh Hl H IH]; intros w' H'.
  - inversion H'. reflexivity.
  - inversion H' as [|u' us' w0 Hu' H0|h l us' w0 Hh Hl H0 E]; subst; [rewrite (IH _ H0); reflexivity|lia].
  - inversion H' as [|u' us' w0 Hu' H0|h' l' us' w0 Hh' Hl' H0 E]; subst; [lia|]. assert (h = h' /\ l = l') as [-> ->] by lia. rewrite (IH _ H0). reflexivity.
Qed.

(** ** numbers *)
Lemma digits_digits s : forall n, digits_of s n -> Forall digit s.
Proof.
  assert (Hd : forall c d, digit_of c d -> digit c). { intros c d H. destruct H as [i c H].
    apply nth_error_In in H. vm_compute in H. unfold digit. repeat (destruct H as [<-|H]; [vm_compute; split; discriminate|]). contradiction. }
  induction s as [|c s IH]; intros n H; [constructor|]. inversion H; subst. constructor; eauto.
Qed.
Lemma natural_number t n : natural t n -> number t /\ number ("-"%char :: t).
Proof.
  intros (Hne & Hd & Hz). apply digits_digits in Hd.
  assert (Hi : t = B "0" \/ (digits t /\ match t with c :: _ => byte c <> 48 | [] => False end)).
  { destruct t as [|c t]; [contradiction|]. destruct (Z.eq_dec (byte c) 48) as [E|E].
    - left. assert (c = "0"%char) as -> by (apply code_inj; exact E). rewrite (Hz t eq_refl). reflexivity.
    - right. split; [split; [exact Hne|exact Hd]|exact E]. }
  split; [exists [], t, [], []|exists (B "-"), t, [], []]; rewrite !app_nil_r; (split; [reflexivity|]); split; auto.
Qed.
Lemma show_Z_number z : number (show_Z z).
Proof.
  assert (H : decimal (show_Z z) z) by (apply show_Z_decimal; reflexivity). destruct H as [H|[_ (s & -> & H)]]; apply natural_number in H; apply H.
Qed.

(** ** what a value stands for *)
Section dumped.
Context `{NN : Num} (repr : num -> str).
Notation jv := (jv (NN := NN)).
Definition finite (x : num) : Prop := neqb x x = true /\ neqb x (nlit (FInf false)) = false /\ neqb x (nlit (FInf true)) = false.
Inductive stands : jv -> json -> Prop :=
| t_text s us w : utf8_of s us -> utf16 us w -> stands (JText s) (SText w)
| t_num x : finite x -> number (repr x) -> stands (JNum x) (SNum (repr x))
| t_int z t : decimal t z -> stands (JInt z) (SNum t)
| t_list l l' : stand l l' -> stands (JList l) (SList l')
| t_dict l l' : standing l l' -> stands (JDict l) (SDict l')
with stand : list jv -> list json -> Prop :=
| tl_nil : stand [] []
| tl_cons v j l l' : stands v j -> stand l l' -> stand (v :: l) (j :: l')
with standing : list (str * jv) -> list (list Z * json) -> Prop :=
| td_nil : standing [] []
| td_cons k us w v j l l' : utf8_of k us -> utf16 us w -> stands v j -> standing l l' -> standing ((k, v) :: l) ((w, j) :: l').
Scheme stands_mind := Minimality for stands Sort Prop
  with stand_mind := Minimality for stand Sort Prop
  with standing_mind := Minimality for standing Sort Prop.
Combined Scheme stands_all from stands_mind, stand_mind, standing_mind.
Fixpoint dump_all (l : list jv) : res (list str) :=
  match l with [] => Ok [] | v :: l' => rbind (dumps repr v) (fun t => rbind (dump_all l') (fun r => Ok (t :: r))) end.
Fixpoint dump_items (l : list (str * jv)) : res (list str) :=
  match l with
  | [] => Ok []
  | (k, v) :: l' => rbind (json_text k) (fun kt => rbind (dumps repr v) (fun t => rbind (dump_items l') (fun r => Ok ((kt ++ B ": " ++ t) :: r))))
  end.
Lemma dumps_list l : dumps repr (JList l) = rbind (dump_all l) (fun ts => Ok (B "[" ++ join (B ", ") ts ++ B "]")).
Proof. reflexivity. Qed.
Lemma dumps_dict l : dumps repr (JDict l) = rbind (dump_items l) (fun ts => Ok (B "{" ++ join (B ", ") ts ++ B "}")).
Proof. reflexivity. Qed.
Definition delimits (r : str) : Prop := stops number_char r /\ stops letter r.
Lemma delim c r : In c (B ",]}") -> delimits (c :: r).
Proof.
  intros H. split; cbn; unfold number_char, letter, digit.
  - intros [Hd|Hi]; vm_compute in H; repeat (destruct H as [<-|H]; [vm_compute in *; first [destruct Hd as [H1 H2]; congruence|intuition discriminate]|]); contradiction.
  - intros Hd. vm_compute in H. repeat (destruct H as [<-|H]; [vm_compute in Hd; intuition congruence|]). contradiction.
Qed.
Lemma first_char v s r : value v s r -> stops space s.
Proof.
  intros H. apply value_kind in H. destruct s as [|c s]; [contradiction|]. apply kind_byte in H. cbn. unfold space. destruct v; lia.
Qed.
Lemma ws_here s : stops space s -> ws s s.
Proof. intros H. exists []. split; [reflexivity|]. split; [constructor|exact H]. Qed.
Lemma ws_close c r : In c (B ",]}:""") -> ws (c :: r) (c :: r).
Proof.
  intros H. apply ws_here. cbn. unfold space. vm_compute in H. repeat (destruct H as [<-|H]; [vm_compute; intuition discriminate|]). contradiction.
Qed.
Lemma ws_space s : stops space s -> ws (" "%char :: s) s.
Proof. intros H. exists [" "%char]. split; [reflexivity|]. split; [|exact H]. constructor; [left; reflexivity|constructor]. Qed.
Lemma dump_means :
  (forall v j, stands v j -> exists t, dumps repr v = Ok t /\ forall r, delimits r -> value j (t ++ r) r) /\
  (forall l l', stand l l' -> exists ts, dump_all l = Ok ts /\ length ts = length l' /\
     (l' <> [] -> forall sp r, sp = [] \/ sp = B " " -> items l' (sp ++ join (B ", ") ts ++ B "]" ++ r) r)) /\
  (forall l l', standing l l' -> exists ts, dump_items l = Ok ts /\ length ts = length l' /\
     (l' <> [] -> forall sp r, sp = [] \/ sp = B " " -> members l' (sp ++ join (B ", ") ts ++ B "}" ++ r) r)).
Proof.
  assert (Hsp : forall sp s, sp = [] \/ sp = B " " -> stops space s -> ws (sp ++ s) s) by (intros sp s [->| ->] H; [apply ws_here, H|apply ws_space, H]).
  apply stands_all.
  - intros s us w Hu Hw. destruct (json_text_ok s us Hu) as (w' & t & Hw' & Ht & Hv). rewrite (utf16_fun _ _ _ Hw Hw'). exists t. split; [exact Ht|]. intros r _. apply Hv.
  - intros x (F1 & F2 & F3) Hn. exists (repr x). split; [|intros r [Hr _]; apply v_num; assumption]. cbn. unfold float_json. rewrite F1, F2, F3. reflexivity.
  - intros z t Hd. apply show_Z_decimal in Hd. subst t. exists (show_Z z). split; [reflexivity|]. intros r [Hr _]. apply v_num; [apply show_Z_number|exact Hr].
  - intros l l' _ (ts & Hts & Hlen & Hi). exists (B "[" ++ join (B ", ") ts ++ B "]"). rewrite dumps_list, Hts. split; [reflexivity|]. intros r _. rewrite <- !app_assoc.
    destruct l' as [|j l']; [|apply v_list; apply (Hi ltac:(discriminate) [] r); left; reflexivity].
    destruct ts; [|discriminate]. apply v_nil. apply ws_close. vm_compute. tauto.
  - intros l l' _ (ts & Hts & Hlen & Hi). exists (B "{" ++ join (B ", ") ts ++ B "}"). rewrite dumps_dict, Hts. split; [reflexivity|]. intros r _. rewrite <- !app_assoc.
    destruct l' as [|j l']; [|apply v_dict; apply (Hi ltac:(discriminate) [] r); left; reflexivity].
    destruct ts; [|discriminate]. apply v_none. apply ws_close. vm_compute. tauto.
  - exists []. split; [reflexivity|]. split; [reflexivity|]. intros H; contradiction.
  - intros v j l l' _ (t & Ht & Hv) _ (ts & Hts & Hlen & Hi). exists (t :: ts). cbn [dump_all]. rewrite Ht, Hts. split; [reflexivity|]. split; [cbn; lia|]. intros _ sp r Hs.
    destruct ts as [|t2 ts].
    + destruct l'; [|discriminate]. cbn [join]. assert (V : value j (t ++ B "]" ++ r) (B "]" ++ r)) by (apply Hv, delim; vm_compute; tauto).
      eapply i_last; [apply Hsp; [exact Hs|eapply first_char; exact V]|exact V|apply ws_close; vm_compute; tauto].
    + destruct l' as [|j2 l']; [discriminate|]. change (join (B ", ") (t :: t2 :: ts)) with (t ++ B ", " ++ join (B ", ") (t2 :: ts)). rewrite <- !app_assoc.
      set (rest := join (B ", ") (t2 :: ts) ++ B "]" ++ r). assert (V : value j (t ++ B ", " ++ rest) (B ", " ++ rest)) by (apply Hv, delim; vm_compute; tauto).
      eapply i_more; [apply Hsp; [exact Hs|eapply first_char; exact V]|exact V|apply ws_close; vm_compute; tauto|]. apply (Hi ltac:(discriminate) (B " ") r). right. reflexivity.
  - exists []. split; [reflexivity|]. split; [reflexivity|]. intros H; contradiction.
  - intros k us w v j l l' Hu Hw _ (t & Ht & Hv) _ (ts & Hts & Hlen & Hi). destruct (json_text_ok k us Hu) as (w' & kt & Hw' & Hkt & Hk). rewrite (utf16_fun _ _ _ Hw Hw') in *.
    exists ((kt ++ B ": " ++ t) :: ts). cbn [dump_items]. rewrite Hkt, Ht, Hts. split; [reflexivity|]. split; [cbn; lia|]. intros _ sp r Hs.
    assert (Hkey : forall r', exists s1, kt ++ r' = B """" ++ s1 /\ units w' s1 r').
    { intros r'. pose proof (Hk r') as V. inversion V as [us0 s0 r0 U E1 E2 E3| | | | | |]; subst. exists s0. split; [reflexivity|exact U]. }
    destruct ts as [|t2 ts].
    + destruct l'; [|discriminate]. cbn [join]. rewrite <- !app_assoc. assert (V : value j (t ++ B "}" ++ r) (B "}" ++ r)) by (apply Hv, delim; vm_compute; tauto).
      destruct (Hkey (B ": " ++ t ++ B "}" ++ r)) as (s1 & E & U). rewrite E.
      eapply m_last; [apply Hsp; [exact Hs|]|exact U|apply ws_close; vm_compute; tauto|apply ws_space; eapply first_char; exact V|exact V|apply ws_close; vm_compute; tauto].
      cbn. unfold space. vm_compute. intuition discriminate.
    + destruct l' as [|j2 l']; [discriminate|]. change (join (B ", ") ((kt ++ B ": " ++ t) :: t2 :: ts)) with ((kt ++ B ": " ++ t) ++ B ", " ++ join (B ", ") (t2 :: ts)). rewrite <- !app_assoc.
      set (rest := join (B ", ") (t2 :: ts) ++ B "}" ++ r). assert (V : value j (t ++ B ", " ++ rest) (B ", " ++ rest)) by (apply Hv, delim; vm_compute; tauto).
      destruct (Hkey (B ": " ++ t ++ B ", " ++ rest)) as (s1 & E & U). rewrite E.
      eapply m_more; [apply Hsp; [exact Hs|]|exact U|apply ws_close; vm_compute; tauto|apply ws_space; eapply first_char; exact V|exact V|apply ws_close; vm_compute; tauto|].
      * cbn. unfold space. vm_compute. intuition discriminate.
      * apply (Hi ltac:(discriminate) (B " ") r). right. reflexivity.
Qed.
Theorem dumps_means v j : stands v j -> exists t, dumps repr v = Ok t /\ means t j.
Proof.
  intros H. destruct (proj1 dump_means v j H) as (t & Ht & Hv). exists t. split; [exact Ht|]. assert (V : value j (t ++ []) []) by (apply Hv; split; exact I).
  rewrite app_nil_r in V. exists t, []. split; [apply ws_here; eapply first_char, V|]. split; [exact V|]. apply ws_here. exact I.
Qed.
End dumped.
