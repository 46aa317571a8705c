(** Specification of the input language: metric names, lines, numbers.
    Only characters and lists; nothing from the model of the code is used
    except the types [str], [flit]. *)
From Verif Require Import Base.

(** ** Characters *)
Definition ws_chars : str := map ascii_of_N [32; 9; 10; 11; 12; 13]%N.
Definition digit_chars : str := B "0123456789".
Definition name_chars : str :=
  B "abcdefghijklmnopqrstuvwxyzABCDEFGHIJKLMNOPQRSTUVWXYZ0123456789_-.".
Definition all_in (cs s : str) : Prop := forall c, In c s -> In c cs.

(** ** Names: [collapse cs r s t]: [t] is [s] with every maximal run of
    characters from [cs] replaced by [r]. *)
Inductive collapse (cs r : str) : str -> str -> Prop :=
| collapse_nil : collapse cs r [] []
| collapse_keep c s t : ~ In c cs -> collapse cs r s t -> collapse cs r (c :: s) (c :: t)
| collapse_run w s t :
    w <> [] -> all_in cs w ->
    (forall c s', s = c :: s' -> ~ In c cs) ->          (* the run is maximal *)
    collapse cs r s t -> collapse cs r (w ++ s) (r ++ t).

(** [only cs s t]: [t] is [s] without the characters outside [cs] *)
Inductive only (cs : str) : str -> str -> Prop :=
| only_nil : only cs [] []
| only_keep c s t : In c cs -> only cs s t -> only cs (c :: s) (c :: t)
| only_drop c s t : ~ In c cs -> only cs s t -> only cs (c :: s) t.

Definition normalised (key out : str) : Prop :=
  exists a b, collapse ws_chars (B "_") key a /\ collapse (B "/") (B "-") a b /\
              only name_chars b out.

(** ** Lines *)
Definition no_outer_ws (s : str) : Prop :=
  (forall c s', s = c :: s' -> ~ In c ws_chars) /\ (forall c s', s = s' ++ [c] -> ~ In c ws_chars).
(** [s] without its outer whitespace is [t] *)
Definition stripped (s t : str) : Prop :=
  exists l r, s = l ++ t ++ r /\ all_in ws_chars l /\ all_in ws_chars r /\ no_outer_ws t.

(** fields separated by bars *)
Fixpoint barred (fields : list str) : str :=
  match fields with
  | [] => []
  | [f] => f
  | f :: fs => f ++ B "|" ++ barred fs
  end.

(** NAME:F0|F1 or NAME:F0|F1|F2 *)
Definition line_of (message key : str) (fields : list str) : Prop :=
  stripped message (key ++ B ":" ++ barred fields) /\
  ~ In ":"%char key /\
  (length fields = 2%nat \/ length fields = 3%nat) /\
  Forall (fun f => ~ In "|"%char f) fields.

(** ** Numbers as python's float() reads them *)
Inductive digit_of : ascii -> Z -> Prop :=
| digit_at i c : nth_error digit_chars i = Some c -> digit_of c (Z.of_nat i).
Inductive digits_of : str -> Z -> Prop :=
| digits_none : digits_of [] 0
| digits_cons c d s v : digit_of c d -> digits_of s v ->
                        digits_of (c :: s) (d * 10 ^ Z.of_nat (length s) + v).
Inductive sign_of : str -> bool -> Prop :=
| sign_none : sign_of [] false
| sign_plus : sign_of (B "+") false
| sign_minus : sign_of (B "-") true.
Definition signed (neg : bool) (z : Z) : Z := if neg then - z else z.
Inductive exp_of : str -> Z -> Prop :=
| exp_none : exp_of [] 0
| exp_some e sg neg s v : e = "e"%char \/ e = "E"%char ->
    sign_of sg neg -> s <> [] -> digits_of s v -> exp_of (e :: sg ++ s) (signed neg v).
(** same letters up to case *)
Definition same_letter (a lower : ascii) : Prop :=
  a = lower \/ (97 <= N_of_ascii lower <= 122)%N /\ (N_of_ascii a + 32 = N_of_ascii lower)%N.
Definition word (s w : str) : Prop := Forall2 same_letter s w.
Inductive float_body (neg : bool) : str -> flit -> Prop :=
| fb_inf s : word s (B "inf") -> float_body neg s (FInf neg)
| fb_infinity s : word s (B "infinity") -> float_body neg s (FInf neg)
| fb_nan s : word s (B "nan") -> float_body neg s FNan
| fb_int ip m ex x : ip <> [] -> digits_of ip m -> exp_of ex x ->
    float_body neg (ip ++ ex) (FDec neg m x)
| fb_frac ip fp m ex x : ip ++ fp <> [] -> digits_of (ip ++ fp) m -> exp_of ex x ->
    float_body neg (ip ++ B "." ++ fp ++ ex) (FDec neg m (x - Z.of_nat (length fp))).
Inductive float_text : str -> flit -> Prop :=
| ft l sg neg b r v : all_in ws_chars l -> all_in ws_chars r ->
    sign_of sg neg -> float_body neg b v -> float_text (l ++ sg ++ b ++ r) v.
Definition not_a_number (s : str) : Prop := forall v, ~ float_text s v.

(** a sample rate: '@' then a non-empty run of digits and dots (which the run
    of digits and dots after it is read, the rest ignored) *)
Definition rate_chars : str := B "0123456789.".
Definition rate_text (s run : str) : Prop :=
  exists rest, s = B "@" ++ run ++ rest /\ run <> [] /\ all_in rate_chars run /\
               (forall c r', rest = c :: r' -> ~ In c rate_chars).
