(** Facts about the $PROVE token. *)
From Verif Require Export Token.
From Coq Require Import Lia ZifyBool ZifyN ZifyNat.
Open Scope N_scope.

Lemma transfer_ok t from to amount t' :
  tk_transfer t from to amount = Ok t' ->
  tk_allowances t' = tk_allowances t /\ amount <= tk_balance t from /\
  (forall a, tk_balance t' a
     = (if a =? from then tk_balance t a - amount else tk_balance t a) + (if a =? to then amount else 0)).
Proof.
  unfold tk_transfer. destruct (_ || _); [discriminate|].
  destruct (N.ltb_spec (tk_balance t from) amount); [discriminate|]. intros [= <-].
  split; [reflexivity|]. split; [assumption|]. intros a. unfold tk_balance at 1. cbn [tk_balances].
  destruct (N.eqb_spec a to) as [->|Ht].
  - rewrite lookup_insert. cbn [default from_option id]. f_equal.
    destruct (N.eqb_spec to from) as [->|Hf]; [rewrite lookup_insert|rewrite lookup_insert_ne by congruence]; reflexivity.
  - rewrite lookup_insert_ne by congruence. rewrite N.add_0_r.
    destruct (N.eqb_spec a from) as [->|Hf]; [rewrite lookup_insert|rewrite lookup_insert_ne by congruence]; reflexivity.
Qed.

Lemma allowance_approve t owner spender amount o s :
  tk_allowance (tk_approve t owner spender amount) o s
  = if (o =? owner) && (s =? spender) then amount else tk_allowance t o s.
Proof.
  unfold tk_allowance, tk_approve. cbn [tk_allowances].
  destruct (N.eqb_spec o owner) as [->|Ho], (N.eqb_spec s spender) as [->|Hs]; cbn [andb];
    try (rewrite lookup_insert; reflexivity); rewrite lookup_insert_ne by congruence; reflexivity.
Qed.

Lemma u256_max_nonzero : u256_max <> 0.
Proof. unfold u256_max. discriminate. Qed.

Lemma balances_eq t t' a : tk_balances t' = tk_balances t -> tk_balance t' a = tk_balance t a.
Proof. unfold tk_balance. now intros ->. Qed.


Lemma spend_ok t owner spender amount t' :
  tk_spend t owner spender amount = Ok t' ->
  tk_balances t' = tk_balances t /\ (amount <= tk_allowance t owner spender \/ tk_allowance t owner spender = u256_max) /\
  (forall o s, o <> owner -> tk_allowance t' o s = tk_allowance t o s) /\
  (tk_allowance t owner spender = u256_max -> t' = t).
Proof.
  unfold tk_spend. destruct (N.eqb_spec (tk_allowance t owner spender) u256_max) as [He|Hne].
  - intros [= <-]. auto.
  - destruct (N.ltb_spec (tk_allowance t owner spender) amount); [discriminate|]. intros [= <-].
    split; [reflexivity|]. split; [auto|]. split; [|congruence]. intros o s Ho. rewrite allowance_approve.
    now destruct (N.eqb_spec o owner).
Qed.

Lemma burn_ok t from amount t' :
  tk_burn t from amount = Ok t' ->
  tk_allowances t' = tk_allowances t /\ amount <= tk_balance t from /\
  (forall a, tk_balance t' a = if a =? from then tk_balance t a - amount else tk_balance t a).
Proof.
  unfold tk_burn. destruct (N.ltb_spec (tk_balance t from) amount); [discriminate|]. intros [= <-].
  split; [reflexivity|]. split; [assumption|]. intros a. unfold tk_balance at 1. cbn [tk_balances].
  destruct (N.eqb_spec a from) as [->|Hf]; [rewrite lookup_insert|rewrite lookup_insert_ne by congruence]; reflexivity.
Qed.

Lemma mint_balance t to amount a :
  tk_balance (tk_mint t to amount) a = tk_balance t a + (if a =? to then amount else 0).
Proof.
  unfold tk_mint, tk_balance at 1. cbn [tk_balances].
  destruct (N.eqb_spec a to) as [->|Hf];
    [rewrite lookup_insert; reflexivity|rewrite lookup_insert_ne by congruence; rewrite N.add_0_r; reflexivity].
Qed.

Lemma transfer_from_ok t spender from to amount t' :
  tk_transfer_from t spender from to amount = Ok t' ->
  amount <= tk_balance t from /\
  (amount <= tk_allowance t from spender \/ tk_allowance t from spender = u256_max) /\
  (forall o s, o <> from -> tk_allowance t' o s = tk_allowance t o s) /\
  (tk_allowance t from spender = u256_max -> tk_allowances t' = tk_allowances t) /\
  (forall a, tk_balance t' a
     = (if a =? from then tk_balance t a - amount else tk_balance t a) + (if a =? to then amount else 0)).
Proof.
  unfold tk_transfer_from. destruct (tk_spend _ _ _ _) as [t1|] eqn:Hs; [|discriminate].
  apply spend_ok in Hs as (Hb & Ha & Ho & Hm). intros H. apply transfer_ok in H as (Hal & Hle & Hbal).
  rewrite (balances_eq _ _ _ Hb) in Hle. split; [exact Hle|]. split; [exact Ha|]. split; [|split].
  - intros o s Hne. unfold tk_allowance at 1. rewrite Hal. now apply Ho.
  - intros He. rewrite Hal. now rewrite (Hm He).
  - intros a. rewrite Hbal. now rewrite (balances_eq _ _ _ Hb).
Qed.
