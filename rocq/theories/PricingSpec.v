(** Vocabulary for the properties of price conversion. *)
From Verif Require Export Pricing.
Open Scope N_scope.

(** The number with decimal digits [ds] (most significant first), and its text. *)
Definition value_of (ds : list N) : N := fold_left (fun acc d => 10 * acc + d) ds 0.
Definition text_of (ds : list N) : list N := map (N.add 48) ds.
Definition all_digits (ds : list N) : Prop := Forall (fun d => d < 10) ds.

(** An exponent: nothing, or [e] or [E], a sign or none, and digits. *)
Inductive exponent_text : list N -> Z -> Prop :=
| et_none : exponent_text [] 0
| et_some c sign ds : c = 101 \/ c = 69 -> sign = [] \/ sign = [43] \/ sign = [45] ->
    all_digits ds -> ds <> [] ->
    exponent_text (c :: sign ++ text_of ds)
      (if bool_decide (sign = [45]) then - Z.of_N (value_of ds) else Z.of_N (value_of ds)).

(** [literal t a b]: the text [t] is an unsigned decimal number of value [a / b]. *)
Inductive literal : list N -> N -> N -> Prop :=
| literal_intro plus ints point fracs ex e :
    plus = [] \/ plus = [43] -> point = [46] \/ (point = [] /\ fracs = []) ->
    all_digits ints -> all_digits fracs -> ints ++ fracs <> [] -> exponent_text ex e ->
    literal (plus ++ text_of ints ++ point ++ text_of fracs ++ ex)
      (value_of (ints ++ fracs) * 10 ^ Z.to_N e) (10 ^ N.of_nat (length fracs) * 10 ^ Z.to_N (- e)).

(** The characters that Unicode calls white space. *)
Definition white_space : list N :=
  [9; 10; 11; 12; 13; 32; 133; 160; 5760; 8192; 8193; 8194; 8195; 8196; 8197; 8198; 8199; 8200; 8201; 8202;
   8232; 8233; 8239; 8287; 12288].

(** The text with white space around it. *)
Definition padded (s t : list N) : Prop :=
  exists before after, s = before ++ t ++ after /\
    Forall (fun c => In c white_space) before /\ Forall (fun c => In c white_space) after.
