(** What the code gets from its surroundings: clock, random numbers, the
    iteration order of dictionaries.  All of it is universally quantified in
    the theorems; [world] counts how much has been consumed. *)
From Verif Require Import Base Num.

Record world := World {
  w_clk : nat;       (* number of calls made to the time function *)
  w_rnd : nat;       (* number of random integers drawn *)
  w_dict : nat;      (* number of dictionary iterations started *)
  w_tbl : nat }.     (* number of SBoxHash tables drawn *)
Definition world0 : world := World 0 0 0 0.

Record env `{NN : Num} := Env {
  e_clock : nat -> num;                       (* n-th reading of time_function *)
  e_randint : nat -> Z;                       (* n-th random.randint(1, maxint) *)
  e_table : nat -> ascii -> N;           (* n-th SBoxHash table *)
  e_ord : nat -> list str -> list str;        (* order used by the n-th dict iteration *)
  e_ord_perm : forall n l, e_ord n l ≡ₚ l }.
Arguments Env {NN}.

Section env.
  Context `{NN : Num} (E : env).
  Definition now (w : world) : num * world :=
    (e_clock E (w_clk w), World (S (w_clk w)) (w_rnd w) (w_dict w) (w_tbl w)).
  Definition randint (w : world) : Z * world :=
    (e_randint E (w_rnd w), World (w_clk w) (S (w_rnd w)) (w_dict w) (w_tbl w)).
  (** keys of a dictionary in the order the next iteration visits them *)
  Definition dict_keys {V} (d : gmap str V) (w : world) : list str * world :=
    (e_ord E (w_dict w) ((map_to_list d).*1),
     World (w_clk w) (w_rnd w) (S (w_dict w)) (w_tbl w)).
  Definition draw_table (w : world) : (ascii -> N) * world :=
    (e_table E (w_tbl w), World (w_clk w) (w_rnd w) (w_dict w) (S (w_tbl w))).
End env.
