(** What a JSON text means (RFC 8259, for texts in ASCII), and UTF-8.  Independent of the code. *)
From Verif Require Import Base.

Notation byte c := (Z.of_N (N_of_ascii c)).

(** ** UTF-8: the bytes of a code point *)
Definition utf8_bytes (u : Z) : list Z :=
  if u <? 128 then [u]
  else if u <? 2048 then [192 + u / 64; 128 + u mod 64]
  else if u <? 65536 then [224 + u / 4096; 128 + u / 64 mod 64; 128 + u mod 64]
  else [240 + u / 262144; 128 + u / 4096 mod 64; 128 + u / 64 mod 64; 128 + u mod 64].
(** [s] is the text of the code points [us] *)
Definition utf8_of (s : str) (us : list Z) : Prop :=
  Forall (fun u => 0 <= u < 1114112) us /\ map (fun c => byte c) s = flat_map utf8_bytes us.
(** the UTF-16 code units of a code point *)
Inductive utf16 : list Z -> list Z -> Prop :=
| s_none : utf16 [] []
| s_one u us ws : 0 <= u < 65536 -> utf16 us ws -> utf16 (u :: us) (u :: ws)
| s_pair h l us ws : 55296 <= h < 56320 -> 56320 <= l < 57344 -> utf16 us ws ->
    utf16 ((65536 + (h - 55296) * 1024 + (l - 56320)) :: us) (h :: l :: ws).

(** ** JSON *)
(** a string is a sequence of UTF-16 code units, a number its text *)
Inductive json := SText (us : list Z) | SNum (t : str) | SWord (t : str) | SList (l : list json) | SDict (l : list (list Z * json)).

Definition space (c : ascii) : Prop := byte c = 32 \/ byte c = 9 \/ byte c = 10 \/ byte c = 13.
Definition stops (bad : ascii -> Prop) (r : str) : Prop := match r with [] => True | c :: _ => ~ bad c end.
(** [r] is what follows the white space at the start of [s] *)
Definition ws (s r : str) : Prop := exists sp, s = sp ++ r /\ Forall space sp /\ stops space r.

Definition digit (c : ascii) : Prop := 48 <= byte c <= 57.
Definition digits (s : str) : Prop := s <> [] /\ Forall digit s.
Definition number (t : str) : Prop := exists sign ip fp ep, t = sign ++ ip ++ fp ++ ep /\
  (sign = [] \/ sign = B "-") /\
  (ip = B "0" \/ (digits ip /\ match ip with c :: _ => byte c <> 48 | [] => False end)) /\
  (fp = [] \/ exists ds, fp = B "." ++ ds /\ digits ds) /\
  (ep = [] \/ exists e sg ds, ep = e ++ sg ++ ds /\ (e = B "e" \/ e = B "E") /\ (sg = [] \/ sg = B "+" \/ sg = B "-") /\ digits ds).
Definition number_char (c : ascii) : Prop := digit c \/ In c (B "+-.eE").
Definition letter (c : ascii) : Prop := 97 <= byte c <= 122 \/ 65 <= byte c <= 90.

Inductive hex : ascii -> Z -> Prop :=
| h_digit c : 48 <= byte c <= 57 -> hex c (byte c - 48)
| h_lower c : 97 <= byte c <= 102 -> hex c (byte c - 87)
| h_upper c : 65 <= byte c <= 70 -> hex c (byte c - 55).
Definition shorts : list (string * Z) := [("""", 34); ("\", 92); ("/", 47); ("b", 8); ("f", 12); ("n", 10); ("r", 13); ("t", 9)]%string.
(** [s] is the rest of a string with the code units [us], and [r] what follows its closing quote *)
Inductive units : list Z -> str -> str -> Prop :=
| u_end r : units [] (B """" ++ r) r
| u_plain c us s r : 32 <= byte c <= 126 -> byte c <> 34 -> byte c <> 92 -> units us s r -> units (byte c :: us) (c :: s) r
| u_short n z us s r : In (n, z) shorts -> units us s r -> units (z :: us) (B "\" ++ B n ++ s) r
| u_hex a b c d x y z w us s r : hex a x -> hex b y -> hex c z -> hex d w -> units us s r ->
    units ((((x * 16) + y) * 16 + z) * 16 + w :: us) (B "\u" ++ a :: b :: c :: d :: s) r.
(** [s] starts with a text of the value, and [r] follows it *)
Inductive value : json -> str -> str -> Prop :=
| v_text us s r : units us s r -> value (SText us) (B """" ++ s) r
| v_num t r : number t -> stops number_char r -> value (SNum t) (t ++ r) r
| v_word w r : In w [B "true"; B "false"; B "null"] -> stops letter r -> value (SWord w) (w ++ r) r
| v_nil s r : ws s (B "]" ++ r) -> value (SList []) (B "[" ++ s) r
| v_list l s r : items l s r -> value (SList l) (B "[" ++ s) r
| v_none s r : ws s (B "}" ++ r) -> value (SDict []) (B "{" ++ s) r
| v_dict l s r : members l s r -> value (SDict l) (B "{" ++ s) r
with items : list json -> str -> str -> Prop :=
| i_last v s s1 s2 r : ws s s1 -> value v s1 s2 -> ws s2 (B "]" ++ r) -> items [v] s r
| i_more v l s s1 s2 s3 r : ws s s1 -> value v s1 s2 -> ws s2 (B "," ++ s3) -> items l s3 r -> items (v :: l) s r
with members : list (list Z * json) -> str -> str -> Prop :=
| m_last us v s s1 s2 s3 s4 s5 r : ws s (B """" ++ s1) -> units us s1 s2 -> ws s2 (B ":" ++ s3) -> ws s3 s4 -> value v s4 s5 ->
    ws s5 (B "}" ++ r) -> members [(us, v)] s r
| m_more us v l s s1 s2 s3 s4 s5 s6 r : ws s (B """" ++ s1) -> units us s1 s2 -> ws s2 (B ":" ++ s3) -> ws s3 s4 -> value v s4 s5 ->
    ws s5 (B "," ++ s6) -> members l s6 r -> members ((us, v) :: l) s r.
(** [s] is a JSON text of [v] *)
Definition means (s : str) (v : json) : Prop := exists s1 s2, ws s s1 /\ value v s1 s2 /\ ws s2 [].
