(** A concrete environment for the examples that show hypotheses can be met. *)
From Verif Require Import Base Num NumFacts Env Glob Metrics Gen Processor
  LineSpec LineFacts FloatFacts ProcFacts ProcSpec ReceiveFacts.
From Coq Require Import QArith Qcanon.
Open Scope Z_scope.

Definition demo_num : Num := XQ (fun q => q).
(** the clock advances by one second at every reading *)
Definition demo_env : env (NN := demo_num) :=
  @Env demo_num (fun n => Fin (QcZ (1000 + Z.of_nat n))) (fun n => 1 + Z.of_nat n)
    (fun _ c => N_of_ascii c) (fun _ l => l) (fun _ _ => Permutation_refl _).

(** a decoded line gives the spec-level facts by computation *)
Lemma typed_line_by m t key fields :
  (match decode m with
   | Some (t', raw, fs) => str_eqb t' t && str_eqb (normalize_key raw) key && bool_decide (fs = fields)
   | None => false
   end) = true -> typed_line m t key fields.
Proof.
  destruct (decode m) as [[[t' raw] fs]|] eqn:E; [|discriminate]. intros H.
  apply andb_prop in H. destruct H as [H1 H3]. apply andb_prop in H1. destruct H1 as [H1 H2].
  apply typed_line_decode. exists raw. rewrite E.
  apply StrFacts.str_eqb_eq in H1. apply StrFacts.str_eqb_eq in H2. apply bool_decide_eq_true in H3.
  subst. auto.
Qed.
Lemma reads_by `{NN : Num} s l : parse_float s = Some l -> reads s (nlit l).
Proof. intros H. exists l. split; [apply parse_float_spec; exact H|reflexivity]. Qed.
Lemma nan_by s : parse_float s = None -> not_a_number s.
Proof. apply parse_float_none. Qed.
Ltac line := apply typed_line_by; vm_compute; reflexivity.
Ltac number := apply reads_by; vm_compute; reflexivity.
