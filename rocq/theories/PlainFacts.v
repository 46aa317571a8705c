(** The blocking UDP client over any history of calls. *)
From Verif Require Import Base StrFacts Plain.

(** ** Specification, from the calls alone *)
(** after the calls [cs] the client has the socket [k]: it was made by the last call of
    connect that succeeded, and no disconnect followed *)
Definition connected (cs : list pcall) (k : nat) : Prop :=
  exists a b, cs = a ++ PConnect (Ok k) :: b /\
    Forall (fun c => match c with PConnect (Ok _) | PDisconnect => False | _ => True end) b.
(** what a call of sendto that ends with [o] makes of the write *)
Inductive written : res Z -> res (option Z) -> Prop :=
| wr_ok n : written (Ok n) (Ok (Some n))
| wr_lost : written (Exn SocketError) (Ok None)
| wr_raises e : e <> SocketError -> written (Exn e) (Exn e).

(** ** Facts *)
Lemma prun_app p a b : prun p (a ++ b) =
  (fst (prun (fst (prun p a)) b), snd (prun p a) ++ snd (prun (fst (prun p a)) b)).
Proof.
  revert p. induction a as [|c a IH]; intros p; cbn [app prun fst snd].
  - destruct (prun p b); reflexivity.
  - destruct (pstep p c) as [p1 o]. rewrite IH. destruct (prun p1 a) as [p2 os]. cbn [fst snd app].
    destruct (prun p2 b). reflexivity.
Qed.
Lemma prun_length p cs : length (snd (prun p cs)) = length cs.
Proof.
  revert p. induction cs as [|c cs IH]; intros p; cbn [prun]; [reflexivity|].
  destruct (pstep p c) as [p1 o]. specialize (IH p1). destruct (prun p1 cs). cbn in *. congruence.
Qed.
Lemma prun_fixed p cs : let p' := fst (prun p cs) in
  pl_original p' = pl_original p /\ pl_host p' = pl_host p /\ pl_port p' = pl_port p.
Proof.
  revert p. induction cs as [|c cs IH]; intros p; cbn [prun]; [auto|].
  destruct (pstep p c) as [p1 o] eqn:E. specialize (IH p1). destruct (prun p1 cs) as [p2 os]. cbn [fst] in *.
  destruct IH as (-> & -> & ->). destruct c as [[k|e]| |d o']; cbn in E; injection E as <- <-; auto.
Qed.
Lemma prun_quiet p cs :
  Forall (fun c => match c with PConnect (Ok _) | PDisconnect => False | _ => True end) cs ->
  pl_socket (fst (prun p cs)) = pl_socket p.
Proof.
  intros H. revert p. induction H as [|c cs Hc H IH]; intros p; cbn [prun]; [auto|].
  destruct (pstep p c) as [p1 o] eqn:E. specialize (IH p1). destruct (prun p1 cs) as [p2 os]. cbn [fst] in *.
  rewrite IH. destruct c as [[k|e]| |d o']; cbn in E; try contradiction; injection E as <- <-; auto.
Qed.
Lemma prun_socket p cs k : pl_socket p = None -> (pl_socket (fst (prun p cs)) = Some k <-> connected cs k).
Proof.
  intros Hp. split.
  - induction cs as [|c cs IH] using rev_ind; [cbn; congruence|]. rewrite prun_app. cbn [fst].
    set (q := fst (prun p cs)) in *. destruct c as [[j|e]| |d o]; cbn.
    + intros [= ->]. exists cs, []. split; [reflexivity|constructor].
    + intros H. destruct (IH H) as (a & b & -> & Hb). exists a, (b ++ [PConnect (Exn e)]).
      split; [rewrite <- app_assoc; reflexivity|apply Forall_app; split; [exact Hb|repeat constructor]].
    + discriminate.
    + intros H. destruct (IH H) as (a & b & -> & Hb). exists a, (b ++ [PWrite d o]).
      split; [rewrite <- app_assoc; reflexivity|apply Forall_app; split; [exact Hb|repeat constructor]].
  - intros (a & b & -> & Hb). rewrite prun_app. cbn [fst prun].
    cbn [pstep plain_connect]. set (q := Plain _ _ _ _). pose proof (prun_quiet q b Hb) as H.
    destruct (prun q b). cbn [fst] in *. rewrite H. reflexivity.
Qed.

Lemma connected_fun cs k k' : connected cs k -> connected cs k' -> k = k'.
Proof.
  intros H H'. apply (prun_socket (Plain None None None None) cs k) in H; [|reflexivity].
  apply (prun_socket (Plain None None None None) cs k') in H'; [|reflexivity]. congruence.
Qed.
Lemma plain_new_ok g host port p : plain_new g host port = Ok p ->
  pl_original p = host /\ pl_socket p = None /\
  (forall h n, host = Some h -> port = Some n -> exists h' n' l, g h n = Ok ((h', n') :: l) /\
      pl_host p = Some h' /\ pl_port p = Some n') /\
  (host = None \/ port = None -> pl_host p = host /\ pl_port p = port).
Proof.
  unfold plain_new. destruct host as [h|], port as [n|].
  2-4: intros [= <-]; cbn; repeat split; try discriminate; auto.
  destruct (g h n) as [[|[h' n'] l]|e] eqn:E; [discriminate| |destruct e; discriminate].
  intros [= <-]. cbn. repeat split; auto.
  - intros h0 n0 [= <-] [= <-]. rewrite E. eauto 10.
  - destruct H; discriminate.
  - destruct H; discriminate.
Qed.

Lemma plain_history g h n h' n' l cs : g h n = Ok ((h', n') :: l) ->
  exists p, plain_new g (Some h) (Some n) = Ok p /\
  forall i c, nth_error cs i = Some c ->
    exists call r, nth_error (snd (prun p cs)) i = Some (call, r) /\
    match c with
    | PWrite d o =>
        (forall k, connected (firstn i cs) k -> call = Some (k, h', n', d) /\ written o r) /\
        ((forall k, ~ connected (firstn i cs) k) -> call = None /\ r = Ok None)
    | PConnect (Exn e) => call = None /\ r = Exn e
    | _ => call = None /\ r = Ok None
    end.
Proof.
  intros E. exists (Plain (Some h) (Some h') (Some n') None). split; [cbn; rewrite E; reflexivity|].
  set (p := Plain _ _ _ _). intros i c Hi.
  apply nth_error_split in Hi as (a & b & -> & <-). rewrite prun_app. cbn [snd].
  rewrite nth_error_app2 by (rewrite prun_length; lia). rewrite prun_length, Nat.sub_diag.
  rewrite firstn_app, Nat.sub_diag, firstn_all, firstn_O, app_nil_r.
  destruct (prun_fixed p a) as (_ & Hh & Hn). pose proof (prun_socket p a) as Hs.
  set (q := fst (prun p a)) in *. cbn [prun].
  destruct (pstep q c) as [q1 o1] eqn:Eq. destruct (prun q1 b) as [q2 os]. cbn [snd nth_error].
  exists (fst o1), (snd o1). split; [destruct o1; reflexivity|].
  destruct c as [[k|e]| |d o]; cbn in Eq; injection Eq as <- <-; cbn [fst snd]; auto.
  unfold plain_write. cbn in Hh, Hn. rewrite Hh, Hn. split.
  - intros k Hk. apply Hs in Hk; [|reflexivity]. rewrite Hk. cbn. split; [reflexivity|].
    destruct o as [z|e]; [constructor|]. destruct e; constructor; discriminate.
  - intros Hk. destruct (pl_socket q) as [k|] eqn:Ek; [|auto].
    exfalso. apply (Hk k), Hs; [reflexivity|exact eq_refl || exact Ek].
Qed.

(** with no host or no port nothing is ever sent and nothing fails *)
Lemma plain_mute g host port cs : host = None \/ port = None ->
  exists p, plain_new g host port = Ok p /\
  forall i d o, nth_error cs i = Some (PWrite d o) -> nth_error (snd (prun p cs)) i = Some (None, Ok None).
Proof.
  intros Hno. exists (Plain host host port None).
  split; [unfold plain_new; destruct host, port; try reflexivity; destruct Hno; discriminate|].
  set (p := Plain _ _ _ _). intros i d o Hi.
  apply nth_error_split in Hi as (a & b & -> & <-). rewrite prun_app. cbn [snd].
  rewrite nth_error_app2 by (rewrite prun_length; lia). rewrite prun_length, Nat.sub_diag.
  destruct (prun_fixed p a) as (_ & Hh & Hn). set (q := fst (prun p a)) in *. cbn [prun pstep].
  destruct (prun q b) as [q2 os]. cbn [snd nth_error]. f_equal. unfold plain_write.
  cbn in Hh, Hn. rewrite Hh, Hn. destruct Hno as [-> | ->]; [reflexivity|]. destruct host; reflexivity.
Qed.

(** when the address does not resolve *)
Lemma plain_unresolved g h n : 
  (exists p, plain_new g (Some h) (Some n) = Ok p) \/
  plain_new g (Some h) (Some n) = Exn ValueError \/
  exists e, g h n = Exn e /\ e <> TypeError /\ e <> IndexError /\ e <> SocketError /\
            plain_new g (Some h) (Some n) = Exn e.
Proof.
  unfold plain_new. destruct (g h n) as [[|[h' n'] l]|e] eqn:E; [auto|eauto|].
  destruct e; auto; right; right; eexists; repeat split; try reflexivity; discriminate.
Qed.
Lemma plain_resolution g h n e : plain_new g (Some h) (Some n) = Exn e <->
  (e = ValueError /\ (g h n = Ok [] \/ g h n = Exn TypeError \/ g h n = Exn IndexError \/ g h n = Exn SocketError)) \/
  (g h n = Exn e /\ e <> TypeError /\ e <> IndexError /\ e <> SocketError).
Proof.
  unfold plain_new. destruct (g h n) as [[|[h' n'] l]|e'] eqn:E.
  - split; [intros [= <-]; auto|]. intros [[-> _]|[H _]]; [reflexivity|discriminate].
  - split; [discriminate|]. intros [[_ [H|[H|[H|H]]]]|[H _]]; discriminate.
  - split.
    + destruct e'; intros [= <-]; (left; split; [reflexivity|]; auto; fail) || (right; repeat split; auto; discriminate) || auto.
    + intros [[-> [H|[H|[H|H]]]]|(H & H1 & H2 & H3)]; try discriminate; injection H as ->; try reflexivity.
      destruct e; congruence.
Qed.
