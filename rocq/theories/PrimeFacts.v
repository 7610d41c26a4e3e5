(** The example program decides primality. *)
From Coq Require Import ZifyBool ZifyN ZifyNat.
From Verif Require Export Prime.
Open Scope N_scope.

Lemma least (Q : N -> bool) (k : N) : Q k = true ->
  exists m, m <= k /\ Q m = true /\ forall j, j < m -> Q j = false.
Proof.
  intros HQ.
  assert (H : forall k, (forall j, j < k -> Q j = false) \/
    exists m, m < k /\ Q m = true /\ forall j, j < m -> Q j = false).
  { clear. intros k. induction k as [|k IH] using N.peano_ind.
    - left. intros j Hj. lia.
    - destruct IH as [IH|(m & Hm & H)].
      + destruct (Q k) eqn:E.
        * right. exists k. split; [lia|]. auto.
        * left. intros j Hj. destruct (N.eq_dec j k) as [->|]; [exact E|]. apply IH. lia.
      + right. exists m. split; [lia|]. exact H. }
  destruct (H (N.succ k)) as [Hn|(m & Hm & H')].
  - rewrite (Hn k) in HQ by lia. discriminate.
  - exists m. split; [lia|]. exact H'.
Qed.

Lemma wmul_small i : i < 2 ^ 32 -> wmul i i = i * i.
Proof.
  intros H. unfold wmul. apply N.mod_small. unfold two64.
  change (2 ^ 64) with (2 ^ 32 * 2 ^ 32). set (b := 2 ^ 32) in *. clearbody b. nia.
Qed.

Lemma wadd_small a b : a + b < two64 -> wadd a b = a + b.
Proof. intros H. unfold wadd. now apply N.mod_small. Qed.

(** Rounds that find nothing. *)
Lemma trial_skip n k : forall i f,
  0 < i -> i + 6 * N.of_nat k < two64 ->
  (forall j, (j < k)%nat -> let i' := i + 6 * N.of_nat j in
     wmul i' i' <= n /\ n mod i' <> 0 /\ n mod (i' + 2) <> 0) ->
  trial (k + f) n i = trial f n (i + 6 * N.of_nat k).
Proof.
  induction k as [|k IH]; intros i f Hi Hb H.
  - cbn [plus]. f_equal. lia.
  - cbn [plus trial]. destruct (H 0%nat) as (H1 & H2 & H3); [lia|].
    replace (i + 6 * N.of_nat 0) with i in * by lia.
    rewrite !wadd_small by lia.
    rewrite (proj2 (N.leb_le _ _) H1).
    destruct (N.eqb_spec i 0); [lia|]. destruct (N.eqb_spec (n mod i) 0); [easy|].
    destruct (N.eqb_spec (i + 2) 0); [lia|]. destruct (N.eqb_spec (n mod (i + 2)) 0); [easy|].
    rewrite IH.
    + f_equal. lia.
    + lia.
    + lia.
    + intros j Hj. specialize (H (S j) ltac:(lia)). cbv zeta in *.
      replace (i + 6 + 6 * N.of_nat j) with (i + 6 * N.of_nat (S j)) by lia. exact H.
Qed.

Lemma mod_divide n d : d <> 0 -> n mod d = 0 <-> (d | n).
Proof. apply N.mod_divide. Qed.

Lemma prime_no_divisor n d : prime_number n -> 1 < d -> d < n -> n mod d <> 0.
Proof.
  intros [_ Hp] H1 H2 H. apply mod_divide in H; [|lia]. destruct (Hp d H); lia.
Qed.

(** The wrapped square of this candidate is 2^64 - 7, more than every prime of 64 bits. *)
Definition root : N := 1852311383259529397.
Lemma root_square : wmul root root = two64 - 7.
Proof. vm_compute. reflexivity. Qed.

Lemma top_composite n : prime_number n -> n < two64 -> n < two64 - 7.
Proof.
  intros Hp Hn. destruct (N.lt_ge_cases n (two64 - 7)) as [|Hge]; [assumption|exfalso].
  assert (H3 : 13 < n) by (unfold two64 in *; lia).
  assert (H : exists k, k <= 6 /\ n = two64 - 7 + k) by (exists (n - (two64 - 7)); unfold two64 in *; lia).
  destruct H as (k & Hk & ->).
  assert (Hc : k = 0 \/ k = 1 \/ k = 2 \/ k = 3 \/ k = 4 \/ k = 5 \/ k = 6) by lia.
  assert (Hd : forall d, 1 < d -> d <= 13 -> (two64 - 7 + k) mod d <> 0).
  { intros d H1 H2. apply prime_no_divisor; [exact Hp|exact H1|lia]. }
  pose proof (Hd 2 eq_refl ltac:(lia)) as D2. pose proof (Hd 3 eq_refl ltac:(lia)) as D3.
  pose proof (Hd 11 eq_refl ltac:(lia)) as D11. pose proof (Hd 13 eq_refl ltac:(lia)) as D13.
  clear - Hc D2 D3 D11 D13.
  destruct Hc as [->|[->|[->|[->|[->|[->| ->]]]]]].
  - apply D3. reflexivity.
  - apply D2. reflexivity.
  - apply D11. reflexivity.
  - apply D2. reflexivity.
  - apply D13. reflexivity.
  - apply D2. reflexivity.
  - apply D3. reflexivity.
Qed.

(** The first candidate whose wrapped square exceeds a prime is below it (up to the last round). *)
Lemma prime_stops n : prime_number n -> 3 < n -> n < two64 ->
  exists k, 5 + 6 * k < two64 /\ n < wmul (5 + 6 * k) (5 + 6 * k) /\
    forall j, j < k -> wmul (5 + 6 * j) (5 + 6 * j) <= n /\ 5 + 6 * j + 2 < n.
Proof.
  intros Hp H3 Hn.
  set (Q := fun k => n <? wmul (5 + 6 * k) (5 + 6 * k)).
  destruct (N.lt_ge_cases n (4294967291 * 4294967291)) as [Hs|Hl].
  - destruct (least Q 715827881) as (k & Hk & HQ & Hlt).
    { unfold Q. apply N.ltb_lt. change (5 + 6 * 715827881) with 4294967291.
      rewrite wmul_small; [exact Hs|reflexivity]. }
    exists k. unfold Q in *. apply N.ltb_lt in HQ. split; [unfold two64; lia|]. split; [exact HQ|].
    intros j Hj. specialize (Hlt j Hj). apply N.ltb_ge in Hlt. split; [exact Hlt|].
    rewrite wmul_small in Hlt.
    + clear - Hlt. nia.
    + assert (H32 : 2 ^ 32 = 4294967296) by reflexivity. lia.
  - assert (Hroot : 5 + 6 * ((root - 5) / 6) = root) by reflexivity.
    destruct (least Q ((root - 5) / 6)) as (k & Hk & HQ & Hlt).
    { unfold Q. rewrite Hroot, root_square. apply N.ltb_lt. now apply top_composite. }
    exists k. unfold Q in *. apply N.ltb_lt in HQ.
    assert (Hb : 5 + 6 * k <= root) by lia.
    assert (Hr : root + 2 < 4294967291 * 4294967291) by reflexivity.
    assert (Hr2 : root + 2 < two64) by reflexivity.
    split; [lia|]. split; [exact HQ|].
    intros j Hj. specialize (Hlt j Hj). apply N.ltb_ge in Hlt. split; [exact Hlt|]. lia.
Qed.

Lemma prime_or_not n : 1 < n -> prime_number n \/ ~ prime_number n.
Proof.
  intros H1. set (Q := fun d => (1 <? d) && (n mod d =? 0)).
  destruct (least Q n) as (q & Hq & HQ & Hl).
  { unfold Q. rewrite N.mod_same by lia. apply andb_true_intro. split; [now apply N.ltb_lt|reflexivity]. }
  unfold Q in *. apply andb_true_iff in HQ. destruct HQ as [Hq1 Hqd].
  apply N.ltb_lt in Hq1. apply N.eqb_eq in Hqd.
  destruct (N.eq_dec q n) as [->|Hne].
  - left. split; [exact H1|]. intros d Hd.
    destruct (N.eq_dec d 1) as [->|]; [now left|]. right.
    assert (Hd0 : d <> 0) by (intros ->; destruct Hd as [e He]; lia).
    assert (Hdn : d <= n) by (apply N.divide_pos_le; [lia|exact Hd]).
    destruct (N.lt_ge_cases d n) as [Hlt|]; [|lia]. exfalso. specialize (Hl d Hlt).
    apply mod_divide in Hd; [|exact Hd0]. rewrite Hd in Hl.
    rewrite (proj2 (N.ltb_lt 1 d)) in Hl by lia. discriminate.
  - right. intros Hp. apply (prime_no_divisor n q Hp Hq1); [lia|exact Hqd].
Qed.

(** The least proper divisor. *)
Lemma least_divisor n : 1 < n -> ~ prime_number n ->
  exists q, 1 < q /\ (q | n) /\ q * q <= n /\ forall d, 1 < d -> d < q -> n mod d <> 0.
Proof.
  intros H1 Hnp.
  set (Q := fun d => (1 <? d) && (n mod d =? 0)).
  destruct (least Q n) as (q & Hq & HQ & Hl).
  { unfold Q. rewrite N.mod_same by lia. apply andb_true_intro. split; [now apply N.ltb_lt|reflexivity]. }
  unfold Q in *. apply andb_true_iff in HQ. destruct HQ as [Hq1 Hqd].
  apply N.ltb_lt in Hq1. apply N.eqb_eq in Hqd. apply mod_divide in Hqd; [|lia].
  exists q. split; [exact Hq1|]. split; [exact Hqd|].
  assert (Hmin : forall d, 1 < d -> d < q -> n mod d <> 0).
  { intros d Hd1 Hd2 Hd. specialize (Hl d Hd2). rewrite Hd in Hl. cbn in Hl.
    rewrite (proj2 (N.ltb_lt 1 d) Hd1) in Hl. discriminate. }
  split; [|exact Hmin].
  destruct Hqd as [c Hc].
  destruct (N.eq_dec c 1) as [->|Hc1].
  - (* q = n: then n is prime *)
    exfalso. apply Hnp. split; [exact H1|]. intros d Hd.
    destruct (N.eq_dec d 1) as [->|]; [now left|]. right.
    assert (Hd0 : d <> 0) by (intros ->; destruct Hd as [e He]; lia).
    assert (Hdn : d <= n) by (apply N.divide_pos_le; [lia|exact Hd]).
    destruct (N.lt_ge_cases d q) as [Hlt|]; [|lia].
    exfalso. apply (Hmin d); [lia|exact Hlt|]. now apply mod_divide.
  - assert (Hc2 : 1 < c) by nia.
    assert (q <= c).
    { destruct (N.lt_ge_cases c q) as [Hlt|]; [|assumption]. exfalso. apply (Hmin c Hc2 Hlt).
      apply mod_divide; [lia|]. exists q. lia. }
    nia.
Qed.

Lemma square_below q n : q * q <= n -> n < two64 -> q < 2 ^ 32.
Proof.
  intros H1 H2. destruct (N.lt_ge_cases q (2 ^ 32)) as [|H]; [assumption|exfalso].
  change two64 with (2 ^ 32 * 2 ^ 32) in H2. set (b := 2 ^ 32) in *. clearbody b. nia.
Qed.

Lemma divides_trans n q d : (q | n) -> d <> 0 -> q mod d = 0 -> n mod d = 0.
Proof. intros Hq Hd H. apply mod_divide; [exact Hd|]. apply mod_divide in H; [|exact Hd]. now transitivity q. Qed.

(** The rounds needed, and the result. *)
Lemma is_prime_correct n : n < two64 ->
  exists b rounds, (forall r, (rounds <= r)%nat -> is_prime r n = Returns b) /\ (b = true <-> prime_number n).
Proof.
  intros Hn. unfold is_prime.
  destruct (N.leb_spec n 1) as [H1|H1].
  { exists false, 0%nat. split; [easy|]. split; [discriminate|]. intros [H _]. lia. }
  destruct (N.leb_spec n 3) as [H3|H3].
  { exists true, 0%nat. split; [easy|]. split; [|easy]. intros _. split; [exact H1|].
    intros d Hd. assert (Hdn : d <= n) by (apply N.divide_pos_le; [lia|exact Hd]).
    destruct (N.eq_dec d 0) as [->|]; [destruct Hd as [e He]; lia|].
    destruct (N.eq_dec d 1); [now left|]. destruct (N.eq_dec d n); [now right|].
    assert (d = 2 /\ n = 3) as [-> ->] by lia. destruct Hd as [e He]. lia. }
  destruct (N.eqb_spec (n mod 2) 0) as [H2|H2]; cbn [orb].
  { exists false, 0%nat. split; [easy|]. split; [discriminate|]. intros Hp.
    exfalso. exact (prime_no_divisor n 2 Hp ltac:(lia) ltac:(lia) H2). }
  destruct (N.eqb_spec (n mod 3) 0) as [Hm3|Hm3].
  { exists false, 0%nat. split; [easy|]. split; [discriminate|]. intros Hp.
    exfalso. exact (prime_no_divisor n 3 Hp ltac:(lia) ltac:(lia) Hm3). }
  destruct (prime_or_not n H1) as [Hp|Hnp].
  - destruct (prime_stops n Hp H3 Hn) as (k & Hk & Hsq & Hj).
    exists true, (S (N.to_nat k)). split; [|easy]. intros r Hr.
    replace r with (N.to_nat k + S (r - S (N.to_nat k)))%nat by lia.
    rewrite trial_skip.
    + rewrite N2Nat.id. cbn [trial]. now rewrite (proj2 (N.leb_gt _ _) Hsq).
    + lia.
    + rewrite N2Nat.id. exact Hk.
    + intros j Hjk. cbv zeta. destruct (Hj (N.of_nat j)) as [Ha Hb]; [lia|].
      split; [exact Ha|]. split; apply prime_no_divisor; try assumption; lia.
  - destruct (least_divisor n H1 Hnp) as (q & Hq1 & Hqd & Hqq & Hmin).
    assert (Hq32 : q < 2 ^ 32) by (eapply square_below; eassumption).
    assert (Hq2 : q mod 2 <> 0) by (intros H; apply H2; eapply divides_trans; [exact Hqd|easy|exact H]).
    assert (Hq3 : q mod 3 <> 0) by (intros H; apply Hm3; eapply divides_trans; [exact Hqd|easy|exact H]).
    assert (Hq5 : exists k, q = 5 + 6 * k \/ q = 5 + 6 * k + 2).
    { clear - Hq1 Hq2 Hq3. pose proof (N.div_mod q 6 ltac:(lia)) as Hd.
      pose proof (N.mod_lt q 6 ltac:(lia)) as Hr.
      assert (Hc : q mod 6 = 1 \/ q mod 6 = 5).
      { set (d := q / 6) in *. set (m := q mod 6) in *. clearbody d m. subst q.
        replace ((6 * d + m) mod 2) with (m mod 2) in Hq2.
        2:{ replace (6 * d + m) with (m + (3 * d) * 2) by lia. now rewrite N.mod_add. }
        replace ((6 * d + m) mod 3) with (m mod 3) in Hq3.
        2:{ replace (6 * d + m) with (m + (2 * d) * 3) by lia. now rewrite N.mod_add. }
        assert (Hm : m = 0 \/ m = 1 \/ m = 2 \/ m = 3 \/ m = 4 \/ m = 5) by lia.
        destruct Hm as [->|[->|[->|[->|[->| ->]]]]]; auto; exfalso; (now apply Hq2) || now apply Hq3. }
      destruct Hc as [Hc|Hc].
      - exists (q / 6 - 1). right. lia.
      - exists (q / 6). left. lia. }
    destruct Hq5 as [k Hk].
    assert (Hik : 5 + 6 * k <= q) by lia.
    assert (H64 : q + 8 < two64) by (change (2 ^ 32) with 4294967296 in Hq32; unfold two64; lia).
    exists false, (S (N.to_nat k)). split; [|split; [discriminate|intros Hp; contradiction]]. intros r Hr.
    replace r with (N.to_nat k + S (r - S (N.to_nat k)))%nat by lia.
    rewrite trial_skip.
    + rewrite N2Nat.id. cbn [trial].
      rewrite (wmul_small (5 + 6 * k)) by lia.
      rewrite (proj2 (N.leb_le _ _)) by nia.
      destruct (N.eqb_spec (5 + 6 * k) 0); [lia|].
      destruct (N.eqb_spec (n mod (5 + 6 * k)) 0) as [|Hne]; [reflexivity|].
      rewrite wadd_small by lia. destruct (N.eqb_spec (5 + 6 * k + 2) 0); [lia|].
      destruct (N.eqb_spec (n mod (5 + 6 * k + 2)) 0) as [|Hne2]; [reflexivity|].
      exfalso. apply mod_divide in Hqd; [|lia]. destruct Hk as [-> | ->]; contradiction.
    + lia.
    + rewrite N2Nat.id. lia.
    + intros j Hjk. cbv zeta. rewrite wmul_small by lia. split; [nia|].
      split; apply Hmin; lia.
Qed.
