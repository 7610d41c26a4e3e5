(** Vocabulary for the properties of numbers that arrive as text. *)
From Verif Require Export Amount RetrySpec PricingSpec.
Open Scope N_scope.

(** The value of a digit. *)
Definition digit (c d : N) : Prop :=
  48 <= c <= 57 /\ c = 48 + d \/ 97 <= c <= 122 /\ c = 87 + d \/ 65 <= c <= 90 /\ c = 55 + d.
(** [numeral radix text n]: without its underscores, the text is made of digits of the radix, and [n] is their
    value. *)
Definition numeral (radix : N) (text : list N) (n : N) : Prop :=
  exists ds, Forall2 digit (List.filter (fun c => negb (c =? 95)) text) ds /\ Forall (fun d => d < radix) ds /\
    n = fold_left (fun acc d => acc * radix + d) ds 0.
(** [amount_text text n]: a decimal number, or one after "0x", "0o", "0b" in radix sixteen, eight, two. *)
Definition amount_text (text : list N) (n : N) : Prop :=
  numeral 10 text n \/
  exists c rest radix, text = 48 :: c :: rest /\ numeral radix rest n /\
    ((c = 120 \/ c = 88) /\ radix = 16 \/ (c = 111 \/ c = 79) /\ radix = 8 \/ (c = 98 \/ c = 66) /\ radix = 2).

(** The days from the first of January of the year 0 to that of year [y] in the Gregorian calendar, which has a
    leap year every fourth year, but not every hundredth, but every four hundredth; and the seconds since
    1970. *)
Definition leap_days (y : Z) : Z := ((y - 1) / 4 - (y - 1) / 100 + (y - 1) / 400)%Z.
Definition new_year (y : Z) : Z := ((365 * y + leap_days y - (365 * 1970 + leap_days 1970)) * 86400)%Z.
