(** Go's interpreted string literals and UTF-8, from the language specification and the Unicode standard. *)
From Coq Require Import List String Ascii Bool NArith Arith.
Import ListNotations.
Local Open Scope string_scope.

Definition text_of (l : list N) : string := fold_right (fun n s => String (ascii_of_N n) s) "" l.
(** UTF-8 of a code point (Unicode standard, table 3-6): no surrogates, nothing above 10FFFF, shortest forms only. *)
Inductive encodes : N -> string -> Prop :=
| en_1 a : (a < 128)%N -> encodes a (text_of [a])
| en_2 a b n : (a < 32 -> b < 64 -> n = 64 * a + b -> 128 <= n -> encodes n (text_of [192 + a; 128 + b]))%N
| en_3 a b c n : (a < 16 -> b < 64 -> c < 64 -> n = 4096 * a + 64 * b + c -> 2048 <= n -> (n < 55296 \/ 57343 < n) ->
    encodes n (text_of [224 + a; 128 + b; 128 + c]))%N
| en_4 a b c d n : (a < 8 -> b < 64 -> c < 64 -> d < 64 -> n = 262144 * a + 4096 * b + 64 * c + d -> 65536 <= n -> n <= 1114111 ->
    encodes n (text_of [240 + a; 128 + b; 128 + c; 128 + d]))%N.

Definition hex_digit (c : ascii) (d : nat) : Prop := String.get d "0123456789abcdef" = Some c \/ String.get d "0123456789ABCDEF" = Some c.
Definition octal_digit (c : ascii) (d : nat) : Prop := String.get d "01234567" = Some c.
(** Digits behind a number read before them. *)
Inductive number (digit : ascii -> nat -> Prop) (base : N) : N -> string -> N -> Prop :=
| nu_end n : number digit base n "" n
| nu_digit m c d s n : digit c d -> number digit base (m * base + N.of_nat d) s n -> number digit base m (String c s) n.
(** k digits that write n *)
Definition digits_of (digit : ascii -> nat -> Prop) (base : N) (k : nat) (s : string) (n : N) : Prop :=
  String.length s = k /\ number digit base 0 s n.

Definition bslash : ascii := "092"%char.
(** Letters of escapes and the bytes they stand for. *)
Definition escapes : list (ascii * N) :=
  [("a", 7); ("b", 8); ("t", 9); ("n", 10); ("v", 11); ("f", 12); ("r", 13); ("034", 34); (bslash, 92)]%char%N.
(** What the text between double quotes stands for. *)
Inductive literal : string -> string -> Prop :=
| li_end : literal "" ""
| li_char c s v : c <> "010"%char -> c <> "034"%char -> c <> bslash -> literal s v -> literal (String c s) (String c v)
| li_escape e n s v : In (e, n) escapes -> literal s v -> literal (String bslash (String e s)) (text_of [n] ++ v)
| li_octal d n s v : digits_of octal_digit 8 3 d n -> (n <= 255)%N -> literal s v -> literal (String bslash (d ++ s)) (text_of [n] ++ v)
| li_hex d n s v : digits_of hex_digit 16 2 d n -> literal s v -> literal (String bslash (String "x" (d ++ s))) (text_of [n] ++ v)
| li_rune d n u s v : digits_of hex_digit 16 4 d n -> encodes n u -> literal s v -> literal (String bslash (String "u" (d ++ s))) (u ++ v)
| li_long d n u s v : digits_of hex_digit 16 8 d n -> encodes n u -> literal s v -> literal (String bslash (String "U" (d ++ s))) (u ++ v).

(** The code points with the property White_Space. *)
Definition white_space (n : N) : Prop :=
  (9 <= n <= 13 \/ n = 32 \/ n = 133 \/ n = 160 \/ n = 5760 \/ 8192 <= n <= 8202 \/ n = 8232 \/ n = 8233 \/ n = 8239 \/ n = 8287 \/ n = 12288)%N.
