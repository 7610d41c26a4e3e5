(** Facts about big-endian byte strings. *)
From Verif Require Export Base.
From Coq Require Import ZifyBool ZifyN ZifyNat.
Open Scope N_scope.

Lemma from_be_nil : from_be [] = 0.
Proof. reflexivity. Qed.

Lemma from_be_snoc bs b : from_be (bs ++ [b]) = from_be bs * 256 + b.
Proof. unfold from_be. now rewrite fold_left_app. Qed.

Lemma be_bytes_S n x : be_bytes (S n) x = be_bytes n (x / 256) ++ [x mod 256].
Proof.
  change (be_bytes (S n) x) with (be_bytes n (N.shiftr x 8) ++ [N.land x (N.ones 8)]).
  now rewrite N.shiftr_div_pow2, N.land_ones.
Qed.

Lemma be_bytes_length n x : length (be_bytes n x) = n.
Proof.
  revert x; induction n as [|n IH]; intros x; [reflexivity|].
  rewrite be_bytes_S, app_length, IH. cbn. lia.
Qed.

Lemma be_bytes_ok n x : bytes_ok (be_bytes n x).
Proof.
  revert x; induction n as [|n IH]; intros x; [constructor|].
  rewrite be_bytes_S. apply Forall_app; split; [apply IH|].
  constructor; [apply N.mod_lt; lia|constructor].
Qed.

Lemma from_be_be_bytes n x : from_be (be_bytes n x) = x mod 256 ^ N.of_nat n.
Proof.
  revert x; induction n as [|n IH]; intros x.
  - cbn. now rewrite N.mod_1_r.
  - rewrite be_bytes_S, from_be_snoc, IH.
    replace (N.of_nat (S n)) with (N.of_nat n + 1) by lia.
    rewrite N.pow_add_r, N.pow_1_r, (N.mul_comm (256 ^ _) 256).
    rewrite (N.mod_mul_r x 256 (256 ^ N.of_nat n)); [lia|lia|]. apply N.pow_nonzero. lia.
Qed.

Lemma from_be_lt bs : bytes_ok bs -> from_be bs < 256 ^ N.of_nat (length bs).
Proof.
  induction bs as [|b bs IH] using rev_ind; intros Hok; [rewrite from_be_nil; cbn; lia|].
  apply Forall_app in Hok as [Hok Hb]. inversion Hb; subst.
  rewrite from_be_snoc, app_length. cbn [length].
  replace (N.of_nat (length bs + 1)) with (N.of_nat (length bs) + 1) by lia.
  rewrite N.pow_add_r, N.pow_1_r. specialize (IH Hok). nia.
Qed.

Lemma be_bytes_from_be bs : bytes_ok bs -> be_bytes (length bs) (from_be bs) = bs.
Proof.
  induction bs as [|b bs IH] using rev_ind; intros Hok; [reflexivity|].
  apply Forall_app in Hok as [Hok Hb]. inversion Hb; subst.
  rewrite app_length. cbn [length]. replace (length bs + 1)%nat with (S (length bs)) by lia.
  rewrite be_bytes_S, from_be_snoc.
  rewrite N.div_add_l by lia. rewrite (N.div_small b) by lia. rewrite N.add_0_r, IH by assumption.
  rewrite N.add_comm, N.mod_add by lia. rewrite N.mod_small by lia. reflexivity.
Qed.

Lemma from_be_inj a b :
  bytes_ok a -> bytes_ok b -> length a = length b -> from_be a = from_be b -> a = b.
Proof.
  intros Ha Hb Hl Heq. rewrite <- (be_bytes_from_be a Ha), <- (be_bytes_from_be b Hb).
  now rewrite Hl, Heq.
Qed.

Lemma be_bytes_inj n x y :
  x < 256 ^ N.of_nat n -> y < 256 ^ N.of_nat n -> be_bytes n x = be_bytes n y -> x = y.
Proof.
  intros Hx Hy Heq. apply (f_equal from_be) in Heq. rewrite !from_be_be_bytes in Heq.
  now rewrite !N.mod_small in Heq by assumption.
Qed.

Lemma two256_eq : two256 = 256 ^ N.of_nat 32.
Proof. reflexivity. Qed.
Lemma two160_eq : two160 = 256 ^ N.of_nat 20.
Proof. reflexivity. Qed.

Lemma address_of_be_bytes a : a < two160 -> address_of_bytes (be_bytes 20 a) = Some a.
Proof.
  intros Ha. unfold address_of_bytes. rewrite be_bytes_length. cbn [Nat.eqb].
  rewrite from_be_be_bytes. f_equal. now apply N.mod_small.
Qed.

Lemma address_of_bytes_inj bs a : bytes_ok bs -> address_of_bytes bs = Some a -> bs = be_bytes 20 a.
Proof.
  unfold address_of_bytes. intros Hok. destruct (Nat.eqb_spec (length bs) 20) as [Hl|]; [|discriminate].
  intros [= <-]. rewrite <- Hl. symmetry. now apply be_bytes_from_be.
Qed.

Lemma bytes_ok_take n bs : bytes_ok bs -> bytes_ok (take n bs).
Proof. apply Forall_take. Qed.
