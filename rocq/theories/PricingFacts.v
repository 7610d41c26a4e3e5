(** Facts about price conversion. *)
From Coq Require Import ZifyBool ZifyN ZifyNat.
From Verif Require Export PricingSpec.
Open Scope N_scope.

Global Arguments N.pow : simpl never.
Global Arguments N.mul : simpl never.

(** ** Integer conversions *)

Lemma wei_spec usd price : usd < two64 ->
  (usd_micros_to_prove_wei usd price = Err ZeroProvePrice /\ price = 0) \/
  (exists w, usd_micros_to_prove_wei usd price = Ok w /\ price <> 0 /\
     w * price <= usd * 10 ^ 18 /\ usd * 10 ^ 18 < (w + 1) * price).
Proof.
  intros Hu. unfold usd_micros_to_prove_wei. destruct (N.eqb_spec price 0) as [->|Hp]; [left; auto|right].
  cbv zeta. rewrite (proj2 (N.ltb_lt _ _)).
  - eexists. split; [reflexivity|]. split; [exact Hp|]. generalize (usd * 10 ^ 18). intros x.
    pose proof (N.div_mod x price Hp). pose proof (N.mod_lt x price Hp). nia.
  - apply N.lt_le_trans with (two64 * 10 ^ 18); [|vm_compute; discriminate].
    apply N.mul_lt_mono_pos_r; [reflexivity|exact Hu].
Qed.

Lemma pgu_spec target price : target < two64 ->
  (compute_max_price_per_pgu_wei target price = Err ZeroProvePrice /\ price = 0) \/
  (exists w, compute_max_price_per_pgu_wei target price = Ok w /\ price <> 0 /\
     w * 10 ^ 9 * price <= target * 10 ^ 18 /\ target * 10 ^ 18 < (w + 1) * 10 ^ 9 * price).
Proof.
  intros Ht. unfold compute_max_price_per_pgu_wei.
  destruct (wei_spec target price Ht) as [[-> Hp]|(w & -> & Hp & H1 & H2)]; [left; auto|right].
  eexists. split; [reflexivity|]. split; [exact Hp|].
  generalize dependent (target * 10 ^ 18). intros x H1 H2.
  change (10 ^ 9) with 1000000000. 
  pose proof (N.div_mod w 1000000000 ltac:(lia)). pose proof (N.mod_lt w 1000000000 ltac:(lia)).
  set (d := w / 1000000000) in *. set (r := w mod 1000000000) in *. clearbody d r. split.
  - nia.
  - assert (w + 1 <= (d + 1) * 1000000000) by lia. nia.
Qed.

Lemma tick_spec wei m : m <> 0 ->
  exists k, round_down_to_tick wei m = k * m /\ k * m <= wei /\ wei < (k + 1) * m.
Proof.
  intros Hm. unfold round_down_to_tick. destruct (N.leb_spec m 1).
  - exists wei. assert (m = 1) by lia. subst. lia.
  - exists (wei / m). pose proof (N.div_mod wei m Hm). pose proof (N.mod_lt wei m Hm).
    generalize dependent (wei / m). generalize dependent (wei mod m). intros r Hr d Hd. nia.
Qed.

(** ** Rounding *)

Lemma nearest_even_err p q : 0 < q ->
  2 * (nearest_even p q * q) <= 2 * p + q /\ 2 * p <= 2 * (nearest_even p q * q) + q.
Proof.
  intros Hq. unfold nearest_even.
  pose proof (N.div_mod p q ltac:(lia)). pose proof (N.mod_lt p q ltac:(lia)).
  set (d := p / q) in *. set (r := p mod q) in *. clearbody d r.
  destruct (N.ltb_spec (2 * r) q); [nia|]. destruct (N.ltb_spec q (2 * r)); [nia|].
  destruct (N.even d); nia.
Qed.

Lemma log2_bounds a : 0 < a -> 2 ^ N.log2 a <= a /\ a < 2 * 2 ^ N.log2 a.
Proof. intros H. destruct (N.log2_spec a H) as [H1 H2]. rewrite N.pow_succ_r' in H2. auto. Qed.

(** [scaled] as a power of two over the integers. *)
Lemma scaled_eq a b e p q : scaled a b e = (p, q) ->
  p = a * 2 ^ Z.to_N (- e) /\ q = b * 2 ^ Z.to_N e.
Proof.
  unfold scaled. destruct e as [|e|e]; intros H; apply pair_equal_spec in H; destruct H as [<- <-];
    cbn [Z.to_N Z.opp]; rewrite ?N.pow_0_r, ?N.mul_1_r; split; reflexivity.
Qed.

Lemma pow2_pos n : 0 < 2 ^ n.
Proof. apply N.neq_0_lt_0, N.pow_nonzero. lia. Qed.

(** Away from zero the quotient is at least [2^52]. *)
Lemma exponent_normal a b p q : 0 < a -> 0 < b -> scaled a b (exponent_of a b) = (p, q) ->
  q * 2 ^ 52 <= p \/
  (exponent_of a b = -1074)%Z /\ (Z.of_N (N.log2 a) - Z.of_N (N.log2 b) <= -1022)%Z.
Proof.
  intros Ha Hb H. unfold exponent_of in *. cbv zeta in *.
  set (l := (Z.of_N (N.log2 a) - Z.of_N (N.log2 b))%Z) in *.
  destruct (scaled a b (l - 52)) as [p1 q1] eqn:E1.
  destruct (N.leb_spec (q1 * 2 ^ 52) p1) as [Hle|Hgt].
  - destruct (Z.max_spec (l - 52) (-1074)) as [[Hm1 Hm2]|[Hm1 Hm2]]; rewrite Hm2 in *.
    + right. split; [reflexivity|]. lia.
    + left. rewrite E1 in H. apply pair_equal_spec in H. destruct H as [<- <-]. exact Hle.
  - destruct (Z.max_spec (l - 53) (-1074)) as [[Hm1 Hm2]|[Hm1 Hm2]]; rewrite Hm2 in *.
    + right. split; [reflexivity|]. lia.
    + left. clear Hgt E1 Hm1 Hm2.
      destruct (scaled_eq _ _ _ _ _ H) as (-> & ->).
      destruct (log2_bounds a Ha) as [HA _]. destruct (log2_bounds b Hb) as [_ HB].
      set (la := N.log2 a) in *. set (lb := N.log2 b) in *.
      (* b * 2^max(l-53,0) * 2^52 <= a * 2^max(53-l,0) *)
      assert (Hx : 2 ^ (lb + 1) * 2 ^ Z.to_N (l - 53) * 2 ^ 52 = 2 ^ la * 2 ^ Z.to_N (- (l - 53))).
      { rewrite <- !N.pow_add_r. f_equal. unfold l. clearbody la lb. lia. }
      rewrite N.pow_add_r, N.pow_1_r in Hx.
      clear H. pose proof (pow2_pos (Z.to_N (l - 53))) as P1. pose proof (pow2_pos (Z.to_N (- (l - 53)))) as P2.
      generalize dependent (2 ^ Z.to_N (l - 53)). generalize dependent (2 ^ Z.to_N (- (l - 53))).
      generalize dependent (2 ^ la). generalize dependent (2 ^ lb). generalize (2 ^ 52).
      clear. intros c y HB x HA u P2 v Hx P1.
      transitivity (x * u); [|nia]. rewrite <- Hx. nia.
Qed.

(** The fraction chosen for [a / b]. *)
Definition chosen (a b : N) : N * N :=
  let e := exponent_of a b in let (p, q) := scaled a b e in scaled (nearest_even p q) 1 (- e).

Lemma to_f64_chosen s a b : 0 < a ->
  to_f64 s a b = (let (n, d) := chosen a b in if d * 2 ^ 1024 <=? n then FInf s else FFin s n d).
Proof.
  intros Ha. unfold to_f64, chosen. destruct (N.eqb_spec a 0); [lia|]. cbv zeta.
  now destruct (scaled a b (exponent_of a b)).
Qed.

Lemma chosen_eq a b n d p q : 0 < b -> chosen a b = (n, d) -> scaled a b (exponent_of a b) = (p, q) ->
  0 < d /\ 0 < q /\ n * b = nearest_even p q * q /\ a * d = p.
Proof.
  intros Hb H E. unfold chosen in H. cbv zeta in H. rewrite E in H.
  destruct (scaled_eq _ _ _ _ _ H) as (-> & ->). destruct (scaled_eq _ _ _ _ _ E) as (-> & ->).
  set (e := exponent_of a b) in *. rewrite Z.opp_involutive.
  pose proof (pow2_pos (Z.to_N e)). pose proof (pow2_pos (Z.to_N (- e))).
  clear H E. generalize dependent (2 ^ Z.to_N e). generalize dependent (2 ^ Z.to_N (- e)). intros u Hu v Hv.
  generalize (nearest_even (a * u) (b * v)). intros m.
  repeat match goal with |- _ /\ _ => split end; [lia|nia|ring|lia].
Qed.

(** The relative error for numbers that are not tiny. *)
Lemma chosen_err a b n d : 0 < a -> 0 < b -> b <= a * 2 ^ 1000 -> chosen a b = (n, d) ->
  0 < d /\ 2 ^ 53 * (n * b) <= 2 ^ 53 * (a * d) + a * d /\ 2 ^ 53 * (a * d) <= 2 ^ 53 * (n * b) + a * d.
Proof.
  intros Ha Hb Hbig H. destruct (scaled a b (exponent_of a b)) as [p q] eqn:E.
  destruct (chosen_eq a b n d p q Hb H E) as (Hd & Hq & H1 & H2). split; [exact Hd|].
  rewrite H1, H2. destruct (nearest_even_err p q Hq) as [N1 N2].
  destruct (exponent_normal a b p q Ha Hb E) as [Hn|[_ Hl]].
  - change (2 ^ 53) with (2 * 2 ^ 52). generalize dependent (2 ^ 52). clear - N1 N2. intros c Hn.
    generalize dependent (nearest_even p q). intros m N1 N2. split; nia.
  - exfalso. destruct (log2_bounds a Ha) as [_ HA]. destruct (log2_bounds b Hb) as [HB _].
    assert (Hx : 2 ^ (N.log2 a + 1022) <= 2 ^ N.log2 b) by (apply N.pow_le_mono_r; lia).
    rewrite N.pow_add_r in Hx. change (2 ^ 1022) with (2 * 2 * 2 ^ 20 * 2 ^ 1000) in Hx.
    clear - HA HB Hx Hbig Ha. pose proof (pow2_pos 1000). 
    generalize dependent (2 ^ N.log2 a). generalize dependent (2 ^ N.log2 b). generalize dependent (2 ^ 1000).
    change (2 ^ 20) with 1048576. intros c Hbig Hc y HB x HA Hx. nia.
Qed.

(** A bound for all numbers. *)
Lemma chosen_le a b n d : 0 < a -> 0 < b -> chosen a b = (n, d) ->
  0 < d /\ n * b * 2 ^ 1000 <= 2 * (a * d) * 2 ^ 1000 + b * d.
Proof.
  intros Ha Hb H. destruct (scaled a b (exponent_of a b)) as [p q] eqn:E.
  destruct (chosen_eq a b n d p q Hb H E) as (Hd & Hq & H1 & H2). split; [exact Hd|].
  rewrite H1, H2. destruct (nearest_even_err p q Hq) as [N1 N2].
  destruct (exponent_normal a b p q Ha Hb E) as [Hn|[He _]].
  - assert (Hm : nearest_even p q * q <= 2 * p).
    { assert (H52 : 1 <= 2 ^ 52) by (vm_compute; discriminate). clear - N1 Hn H52. generalize dependent (2 ^ 52).
      generalize dependent (nearest_even p q). intros m N1 c Hn Hc. nia. }
    generalize (2 ^ 1000). intros c. generalize dependent (nearest_even p q). intros m _ _ _ Hm. clear - Hm. nia.
  - rewrite He in E. cbn in E. apply pair_equal_spec in E. destruct E as [E1 E2]. subst q.
    assert (Hd2 : 2 ^ 1000 <= d).
    { unfold chosen in H. cbv zeta in H. rewrite He in H. cbn [scaled] in H.
      rewrite E1 in H. cbn [Z.opp scaled] in H.
      apply pair_equal_spec in H. destruct H as [_ <-]. rewrite N.mul_1_l. apply N.pow_le_mono_r; lia. }
    clear - N1 Hd2. generalize dependent (nearest_even p b). intros m N1.
    generalize dependent (2 ^ 1000). intros c Hc. nia.
Qed.

Lemma round_half_up_spec n d : 0 < d ->
  2 * (round_half_up n d * d) <= 2 * n + d /\ 2 * n + d < 2 * (round_half_up n d * d) + 2 * d.
Proof.
  intros Hd. unfold round_half_up. pose proof (N.div_mod (2 * n + d) (2 * d) ltac:(lia)).
  pose proof (N.mod_lt (2 * n + d) (2 * d) ltac:(lia)). nia.
Qed.

(** ** The whole conversion *)

(** What happens after parsing. *)
Definition to_micros (f : f64) : result N price_error :=
  match f with
  | FFin negative num den =>
      if negative || (num =? 0) then Err PriceConversion
      else match f64_million num den with
           | FFin _ n d =>
               let micros := round_half_up n d in
               if micros <? 1 then Err PriceConversion
               else if two64 <=? micros then Err PriceConversion
               else Ok micros
           | _ => Err PriceConversion
           end
  | _ => Err PriceConversion
  end.

Lemma compose_up U a b n1 d1 n2 d2 k X : 0 < d1 -> 0 < d2 -> 1 <= U ->
  U * (n1 * b) <= U * (a * d1) + a * d1 ->
  U * (n2 * d1) <= U * (n1 * X * d2) + n1 * X * d2 ->
  2 * (k * d2) <= 2 * n2 + d2 ->
  U * U * (n2 * b) <= (U + 1) * (U + 1) * (X * a * d2) /\
  2 * (U * U) * (k * b) <= 2 * (U * U) * (X * a) + 8 * U * (X * a) + U * U * b.
Proof.
  intros Hd1 Hd2 HU H1 H2 H3.
  assert (A : U * U * (n2 * b) <= (U + 1) * (U + 1) * (X * a * d2)).
  { apply (N.mul_le_mono_pos_r _ _ d1 Hd1).
    transitivity ((U + 1) * (X * d2) * (U * (n1 * b))).
    - transitivity (U * b * (U * (n2 * d1))); [apply N.eq_le_incl; ring|].
      transitivity (U * b * ((U + 1) * (n1 * X * d2))); [apply N.mul_le_mono_l; lia|]. apply N.eq_le_incl; ring.
    - transitivity ((U + 1) * (X * d2) * ((U + 1) * (a * d1))); [apply N.mul_le_mono_l; lia|].
      apply N.eq_le_incl; ring. }
  split; [exact A|].
  apply (N.mul_le_mono_pos_r _ _ d2 Hd2).
  transitivity (U * U * b * (2 * (k * d2))); [apply N.eq_le_incl; ring|].
  transitivity (U * U * b * (2 * n2 + d2)); [now apply N.mul_le_mono_l|].
  transitivity (2 * (U * U * (n2 * b)) + U * U * b * d2); [apply N.eq_le_incl; ring|].
  transitivity (2 * ((U + 1) * (U + 1) * (X * a * d2)) + U * U * b * d2); [lia|].
  assert ((U + 1) * (U + 1) <= U * U + 4 * U) by nia.
  transitivity (2 * ((U * U + 4 * U) * (X * a * d2)) + U * U * b * d2).
  - apply N.add_le_mono_r, N.mul_le_mono_l, N.mul_le_mono_r. assumption.
  - apply N.eq_le_incl. ring.
Qed.

Lemma compose_down U a b n1 d1 n2 d2 k X : 0 < d1 -> 0 < d2 -> 1 <= U ->
  U * (a * d1) <= U * (n1 * b) + a * d1 ->
  U * (n1 * X * d2) <= U * (n2 * d1) + n1 * X * d2 ->
  2 * n2 + d2 < 2 * (k * d2) + 2 * d2 ->
  2 * (U * U) * (X * a) <= 2 * (U * U) * (k * b) + U * U * b + 8 * U * (X * a).
Proof.
  intros Hd1 Hd2 HU H1 H2 H3.
  (* (U-1)^2 X a d2 <= U^2 n2 b *)
  assert (H1' : (U - 1) * (a * d1) <= U * (n1 * b)) by (rewrite N.mul_sub_distr_r; lia).
  assert (H2' : (U - 1) * (n1 * X * d2) <= U * (n2 * d1)) by (rewrite N.mul_sub_distr_r; lia).
  assert (A : (U - 1) * (U - 1) * (X * a * d2) <= U * U * (n2 * b)).
  { apply (N.mul_le_mono_pos_r _ _ d1 Hd1).
    transitivity ((U - 1) * (X * d2) * ((U - 1) * (a * d1))); [apply N.eq_le_incl; ring|].
    transitivity ((U - 1) * (X * d2) * (U * (n1 * b))); [now apply N.mul_le_mono_l|].
    transitivity (U * b * ((U - 1) * (n1 * X * d2))); [apply N.eq_le_incl; ring|].
    transitivity (U * b * (U * (n2 * d1))); [now apply N.mul_le_mono_l|]. apply N.eq_le_incl; ring. }
  apply (N.mul_le_mono_pos_r _ _ d2 Hd2).
  assert (Hs : U * U <= (U - 1) * (U - 1) + 4 * U).
  { rewrite <- (N.sub_add 1 U HU) at 1 2. set (V := U - 1) in *. nia. }
  transitivity (2 * ((U - 1) * (U - 1) * (X * a * d2)) + 8 * U * (X * a) * d2).
  { transitivity (2 * (((U - 1) * (U - 1) + 4 * U) * (X * a * d2))); [|apply N.eq_le_incl; ring].
    transitivity (2 * (U * U * (X * a * d2))); [apply N.eq_le_incl; ring|].
    apply N.mul_le_mono_l, N.mul_le_mono_r. exact Hs. }
  transitivity (2 * (U * U * (n2 * b)) + 8 * U * (X * a) * d2); [lia|].
  assert (B : 2 * (U * U * (n2 * b)) <= U * U * b * (2 * (k * d2) + d2)).
  { transitivity (U * U * b * (2 * n2)); [apply N.eq_le_incl; ring|]. apply N.mul_le_mono_l. lia. }
  transitivity (U * U * b * (2 * (k * d2) + d2) + 8 * U * (X * a) * d2); [lia|]. apply N.eq_le_incl. ring.
Qed.

(** The rounded product is close to a million times the number. *)
Lemma micros_near a b k : 0 < a -> 0 < b -> b <= 10000000 * a -> forall n1 d1 n2 d2,
  chosen a b = (n1, d1) -> chosen (n1 * 1000000) d1 = (n2, d2) -> k = round_half_up n2 d2 ->
  0 < n1 /\ 0 < d1 /\ 0 < d2 /\
  2 ^ 52 * (k * b) <= 2 ^ 51 * b + 2 ^ 52 * (1000000 * a) + 2 * (1000000 * a) /\
  2 ^ 52 * (1000000 * a) <= 2 ^ 51 * b + 2 ^ 52 * (k * b) + 2 * (1000000 * a) /\
  n2 * b <= 2 * (d2 * (1000000 * a)).
Proof.
  intros Ha Hb Hbig n1 d1 n2 d2 H1 H2 Hk.
  assert (Hb1 : b <= a * 2 ^ 1000).
  { transitivity (a * 10000000); [lia|]. apply N.mul_le_mono_l. vm_compute. discriminate. }
  destruct (chosen_err a b n1 d1 Ha Hb Hb1 H1) as (Hd1 & U1 & L1).
  assert (Hn1 : 0 < n1).
  { destruct (N.eq_dec n1 0) as [->|]; [exfalso|lia]. clear - L1 Ha Hd1. change (2 ^ 53) with 9007199254740992 in L1. nia. }
  assert (Hx : d1 <= 20000000 * n1).
  { clear - L1 Ha Hd1 Hb Hbig. change (2 ^ 53) with 9007199254740992 in L1.
    assert (a * d1 <= 2 * (n1 * b)) by lia. nia. }
  assert (Hb2 : d1 <= n1 * 1000000 * 2 ^ 1000).
  { transitivity (n1 * 20000000); [lia|]. rewrite <- N.mul_assoc. apply N.mul_le_mono_l. vm_compute. discriminate. }
  destruct (chosen_err (n1 * 1000000) d1 n2 d2 ltac:(lia) Hd1 Hb2 H2) as (Hd2 & U2 & L2).
  destruct (round_half_up_spec n2 d2 Hd2) as [U3 L3]. rewrite <- Hk in *.
  split; [exact Hn1|]. split; [exact Hd1|]. split; [exact Hd2|].
  destruct (compose_up (2 ^ 53) a b n1 d1 n2 d2 k 1000000 Hd1 Hd2 ltac:(vm_compute; discriminate) U1 U2 U3) as [C0 C1].
  pose proof (compose_down (2 ^ 53) a b n1 d1 n2 d2 k 1000000 Hd1 Hd2 ltac:(vm_compute; discriminate) L1 L2 L3) as C2.
  clear - C0 C1 C2. generalize dependent (1000000 * a). intros X C0 C1 C2.
  change (2 ^ 53) with 9007199254740992 in *. change (2 ^ 52) with 4503599627370496.
  change (2 ^ 51) with 2251799813685248.
  generalize dependent (k * b). intros kb C1 C2. split; [lia|]. split; [lia|].
  rewrite (N.mul_comm d2 X). generalize dependent (n2 * b). generalize dependent (X * d2). lia.
Qed.

(** Tiny numbers are rejected. *)
Lemma micros_tiny a b : 0 < a -> 0 < b -> 10000000 * a < b -> forall n1 d1 n2 d2,
  chosen a b = (n1, d1) -> 0 < n1 -> chosen (n1 * 1000000) d1 = (n2, d2) -> round_half_up n2 d2 = 0.
Proof.
  intros Ha Hb Hs n1 d1 n2 d2 H1 Hn1 H2.
  destruct (chosen_le a b n1 d1 Ha Hb H1) as (Hd1 & U1).
  destruct (chosen_le (n1 * 1000000) d1 n2 d2 ltac:(lia) Hd1 H2) as (Hd2 & U2).
  assert (Hc : 10000000000 <= 2 ^ 1000) by (vm_compute; discriminate).
  assert (A : n1 * 4500000 <= d1).
  { clear - U1 Hs Hb Hc Hd1. generalize dependent (2 ^ 1000). intros c U1 Hc.
    apply (N.mul_le_mono_pos_r _ _ (b * c)); [nia|].
    transitivity (4500000 * (n1 * b * c)); [apply N.eq_le_incl; ring|].
    transitivity (4500000 * (2 * (a * d1) * c + b * d1)); [now apply N.mul_le_mono_l|].
    assert (10000000 * (a * d1 * c) <= b * d1 * c).
    { assert (10000000 * a * (d1 * c) <= b * (d1 * c)) by (apply N.mul_le_mono_r; lia). lia. }
    assert (10000000000 * (b * d1) <= b * d1 * c) by nia.
    lia. }
  assert (B : 2 * n2 < d2).
  { clear - U2 A Hd1 Hd2 Hc. generalize dependent (2 ^ 1000). intros c U2 Hc.
    apply (N.mul_lt_mono_pos_r (d1 * c)); [nia|].
    assert (4500000 * (n1 * d2 * c) <= d1 * d2 * c).
    { transitivity (n1 * 4500000 * (d2 * c)); [apply N.eq_le_incl; ring|].
      transitivity (d1 * (d2 * c)); [now apply N.mul_le_mono_r|]. apply N.eq_le_incl; ring. }
    assert (10000000000 * (d1 * d2) <= d1 * d2 * c) by nia.
    assert (0 < d1 * d2 * c) by nia.
    assert (n2 * d1 * c = n2 * (d1 * c)) by ring.
    assert (2 * (n1 * 1000000 * d2) * c = 2000000 * (n1 * d2 * c)) by ring.
    assert (d2 * (d1 * c) = d1 * d2 * c) by ring. lia. }
  unfold round_half_up. apply N.div_small. lia.
Qed.

(** The number is accepted if it is neither too small nor too large. *)
Lemma to_micros_spec a b : 0 < a -> 0 < b -> forall r, to_micros (to_f64 false a b) = r ->
  (forall k, r = Ok k -> 1 <= k /\ k < two64 /\
     2 ^ 52 * (k * b) <= 2 ^ 51 * b + 2 ^ 52 * (1000000 * a) + 2 * (1000000 * a) /\
     2 ^ 52 * (1000000 * a) <= 2 ^ 51 * b + 2 ^ 52 * (k * b) + 2 * (1000000 * a)) /\
  (b <= 1000000 * a -> 1000000 * a <= 2 ^ 63 * b -> exists k, r = Ok k).
Proof.
  intros Ha Hb r Hr. rewrite to_f64_chosen in Hr by exact Ha.
  destruct (chosen a b) as [n1 d1] eqn:E1.
  destruct (N.lt_ge_cases (10000000 * a) b) as [Hs|Hbig].
  - split; [|intros; lia]. intros k ->. exfalso.
    destruct (N.leb_spec (d1 * 2 ^ 1024) n1); [discriminate|]. cbn [to_micros orb] in Hr.
    destruct (N.eqb_spec n1 0); [discriminate|].
    unfold f64_million in Hr. rewrite to_f64_chosen in Hr by lia.
    destruct (chosen (n1 * 1000000) d1) as [n2 d2] eqn:E2.
    destruct (d2 * 2 ^ 1024 <=? n2); [discriminate|].
    rewrite (micros_tiny a b Ha Hb Hs n1 d1 n2 d2 E1 ltac:(lia) E2) in Hr. discriminate.
  - destruct (chosen (n1 * 1000000) d1) as [n2 d2] eqn:E2.
    destruct (micros_near a b _ Ha Hb Hbig n1 d1 n2 d2 E1 E2 eq_refl) as (Hn1 & Hd1 & Hd2 & U & L & C).
    assert (Hb1 : b <= a * 2 ^ 1000).
    { transitivity (a * 10000000); [lia|]. apply N.mul_le_mono_l. vm_compute. discriminate. }
    destruct (chosen_err a b n1 d1 Ha Hb Hb1 E1) as (_ & U1 & _).
    split.
    + intros k ->. destruct (N.leb_spec (d1 * 2 ^ 1024) n1); [discriminate|]. cbn [to_micros orb] in Hr.
      destruct (N.eqb_spec n1 0); [discriminate|].
      unfold f64_million in Hr. rewrite to_f64_chosen in Hr by lia. rewrite E2 in Hr.
      destruct (d2 * 2 ^ 1024 <=? n2); [discriminate|]. cbv zeta in Hr.
      destruct (N.ltb_spec (round_half_up n2 d2) 1); [discriminate|].
      destruct (N.leb_spec two64 (round_half_up n2 d2)); [discriminate|].
      assert (Hk : round_half_up n2 d2 = k) by congruence. rewrite Hk in *. auto.
    + intros Hlo Hhi.
      assert (I1 : n1 < d1 * 2 ^ 1024).
      { assert (Hc : 2 ^ 70 <= 2 ^ 1024) by (vm_compute; discriminate).
        apply N.lt_le_trans with (d1 * 2 ^ 70); [|now apply N.mul_le_mono_l].
        clear - U1 Hhi Hb Ha Hd1. change (2 ^ 53) with 9007199254740992 in U1.
        change (2 ^ 63) with 9223372036854775808 in Hhi. change (2 ^ 70) with 1180591620717411303424.
        apply (N.mul_lt_mono_pos_r b); [exact Hb|].
        assert (n1 * b <= 2 * (a * d1)) by lia.
        assert (a <= 9223372036854775808 * b) by lia.
        assert (a * d1 <= 9223372036854775808 * b * d1) by (now apply N.mul_le_mono_r).
        assert (0 < d1 * b) by nia. assert (d1 * 1180591620717411303424 * b = 1180591620717411303424 * (d1 * b)) by ring.
        assert (9223372036854775808 * b * d1 = 9223372036854775808 * (d1 * b)) by ring. lia. }
      assert (I2 : n2 < d2 * 2 ^ 1024).
      { assert (Hc : 2 ^ 70 <= 2 ^ 1024) by (vm_compute; discriminate).
        apply N.lt_le_trans with (d2 * 2 ^ 70); [|now apply N.mul_le_mono_l].
        clear - C Hhi Hb Hd2.
        change (2 ^ 63) with 9223372036854775808 in Hhi. change (2 ^ 70) with 1180591620717411303424.
        apply (N.mul_lt_mono_pos_r b); [exact Hb|].
        assert (d2 * (1000000 * a) <= d2 * (9223372036854775808 * b)) by (now apply N.mul_le_mono_l).
        assert (0 < d2 * b) by nia. assert (d2 * 1180591620717411303424 * b = 1180591620717411303424 * (d2 * b)) by ring.
        assert (d2 * (9223372036854775808 * b) = 9223372036854775808 * (d2 * b)) by ring. lia. }
      assert (K1 : 1 <= round_half_up n2 d2).
      { clear - L Hlo Hb. destruct (N.eq_dec (round_half_up n2 d2) 0) as [E|]; [|lia]. exfalso. rewrite E in L.
        change (2 ^ 52) with 4503599627370496 in L. change (2 ^ 51) with 2251799813685248 in L. lia. }
      assert (K2 : round_half_up n2 d2 < two64).
      { clear - U Hhi Hb. generalize dependent (round_half_up n2 d2). intros k U.
        change (2 ^ 52) with 4503599627370496 in U. change (2 ^ 51) with 2251799813685248 in U.
        change (2 ^ 63) with 9223372036854775808 in Hhi. change two64 with 18446744073709551616.
        apply (N.mul_lt_mono_pos_r b); [exact Hb|]. lia. }
      exists (round_half_up n2 d2). rewrite <- Hr.
      rewrite (proj2 (N.leb_gt _ _) I1). cbn [to_micros orb].
      destruct (N.eqb_spec n1 0); [lia|].
      unfold f64_million. rewrite to_f64_chosen by lia. rewrite E2, (proj2 (N.leb_gt _ _) I2). cbv zeta.
      now rewrite (proj2 (N.ltb_ge _ _) K1), (proj2 (N.leb_gt _ _) K2).
Qed.

Lemma to_f64_zero : to_micros (to_f64 false 0 1) = Err PriceConversion.
Proof. reflexivity. Qed.

(** ** Reading numbers *)

Lemma is_digit_spec c : is_digit c = true <-> 48 <= c /\ c <= 57.
Proof. unfold is_digit. rewrite andb_true_iff, !N.leb_le. reflexivity. Qed.

Lemma text_is_digit ds : all_digits ds -> Forall (fun c => is_digit c = true) (text_of ds).
Proof.
  intros H. unfold text_of. apply Forall_map. apply (Forall_impl _ _ _ H). intros d Hd.
  apply is_digit_spec. lia.
Qed.

Lemma digits_prefix cs r : Forall (fun c => is_digit c = true) cs ->
  match r with c :: _ => is_digit c = false | [] => True end -> digits (cs ++ r) = (cs, r).
Proof.
  intros Hc Hr. induction Hc as [|c cs Hd _ IH]; cbn [app digits].
  - destruct r as [|c r]; cbn [digits]; [reflexivity|]. now rewrite Hr.
  - now rewrite Hd, IH.
Qed.

Lemma digits_split s cs r : digits s = (cs, r) ->
  s = cs ++ r /\ Forall (fun c => is_digit c = true) cs /\ match r with c :: _ => is_digit c = false | [] => True end.
Proof.
  revert cs r. induction s as [|c s IH]; intros cs r; cbn [digits].
  - intros H. apply pair_equal_spec in H. destruct H as [<- <-]. auto.
  - destruct (is_digit c) eqn:E.
    + destruct (digits s) as [ds rest]. intros H. apply pair_equal_spec in H. destruct H as [<- <-].
      destruct (IH ds rest eq_refl) as (-> & Hf & Hr). split; [reflexivity|]. split; [now constructor|exact Hr].
    + intros H. apply pair_equal_spec in H. destruct H as [<- <-]. auto.
Qed.

Lemma digit_chars cs : Forall (fun c => is_digit c = true) cs -> exists ds, all_digits ds /\ cs = text_of ds.
Proof.
  intros H. exists (map (fun c => c - 48) cs). split.
  - unfold all_digits. apply Forall_map. apply (Forall_impl _ _ _ H). intros c Hc. apply is_digit_spec in Hc. lia.
  - unfold text_of. rewrite map_map. induction H as [|c cs Hc _ IH]; cbn; [reflexivity|].
    apply is_digit_spec in Hc. f_equal; [lia|exact IH].
Qed.

Lemma digits_value_text ds : digits_value (text_of ds) = value_of ds.
Proof.
  unfold digits_value, value_of, text_of. generalize 0. induction ds as [|d ds IH]; intros acc; cbn; [reflexivity|].
  rewrite <- IH. f_equal. lia.
Qed.

Lemma decimal_eq a b e : decimal a b e = (a * 10 ^ Z.to_N e, b * 10 ^ Z.to_N (- e)).
Proof. destruct e; cbn [decimal Z.to_N Z.opp]; rewrite ?N.pow_0_r, ?N.mul_1_r; reflexivity. Qed.

Lemma read_exponent_text ex e : exponent_text ex e ->
  read_exponent ex = Some e /\ match ex with c :: _ => is_digit c = false /\ c <> 46 | [] => True end.
Proof.
  intros H. destruct H as [|c sign ds Hc Hs Hd Hne]; [easy|].
  assert (Hl : lower c = 101) by (destruct Hc as [-> | ->]; reflexivity).
  split; [|destruct Hc as [-> | ->]; easy].
  unfold read_exponent. rewrite Hl. cbn [N.eqb Pos.eqb].
  assert (Hrd : read_sign (sign ++ text_of ds) = (bool_decide (sign = [45]), text_of ds)).
  { destruct Hs as [->|[->| ->]]; [|reflexivity|reflexivity]. cbn [app].
    destruct ds as [|d ds]; [easy|]. cbn. apply Forall_cons in Hd. destruct Hd as [Hd _].
    destruct (N.eqb_spec (48 + d) 43); [lia|]. destruct (N.eqb_spec (48 + d) 45); [lia|]. reflexivity. }
  rewrite Hrd. pose proof (digits_prefix (text_of ds) [] (text_is_digit ds Hd) I) as Hp.
  rewrite app_nil_r in Hp. rewrite Hp.
  rewrite bool_decide_eq_false_2 by (destruct ds; easy). rewrite (bool_decide_eq_true_2 ([] = [])) by reflexivity.
  now rewrite digits_value_text.
Qed.

Lemma lower_digit c : is_digit c = true -> lower c = c.
Proof.
  intros H. apply is_digit_spec in H. unfold lower. destruct (N.leb_spec 65 c); [lia|reflexivity].
Qed.

Lemma read_number_text ints point fracs ex e :
  point = [46] \/ (point = [] /\ fracs = []) -> all_digits ints -> all_digits fracs -> ints ++ fracs <> [] ->
  exponent_text ex e ->
  read_number (text_of ints ++ point ++ text_of fracs ++ ex)
  = Some (value_of (ints ++ fracs) * 10 ^ Z.to_N e, 10 ^ N.of_nat (length fracs) * 10 ^ Z.to_N (- e)).
Proof.
  intros Hp Hi Hf Hne He. destruct (read_exponent_text ex e He) as [Hr Hx].
  assert (Hx' : match ex with c :: _ => is_digit c = false | [] => True end) by (destruct ex; tauto).
  unfold read_number.
  assert (Hnil : text_of ints ++ text_of fracs <> []).
  { intros E. apply Hne. unfold text_of in E. rewrite <- map_app in E. now apply map_eq_nil in E. }
  destruct Hp as [->|[-> ->]].
  - rewrite (digits_prefix (text_of ints) ([46] ++ text_of fracs ++ ex) (text_is_digit ints Hi)) by reflexivity.
    cbn [app N.eqb Pos.eqb]. rewrite (digits_prefix (text_of fracs) ex (text_is_digit fracs Hf) Hx').
    rewrite bool_decide_eq_false_2 by exact Hnil. rewrite Hr, decimal_eq.
    unfold text_of. now rewrite <- map_app, map_length, digits_value_text.
  - cbn [app text_of map]. rewrite (digits_prefix (text_of ints) ex (text_is_digit ints Hi) Hx').
    replace (match ex with c :: r1 => if c =? 46 then digits r1 else ([], ex) | [] => ([], []) end) with (@nil N, ex).
    2:{ destruct ex as [|c r]; [reflexivity|]. destruct Hx as [_ Hx]. destruct (N.eqb_spec c 46); [easy|reflexivity]. }
    rewrite !app_nil_r in *. rewrite bool_decide_eq_false_2 by exact Hnil. rewrite Hr, decimal_eq.
    now rewrite digits_value_text.
Qed.

Lemma map_lower_head r c w : r <> [] -> (forall d r', r = d :: r' -> is_digit d = true \/ d = 46) ->
  is_digit c = false -> c <> 46 -> map lower r <> c :: w.
Proof.
  intros Hr Hh Hc Hc2 E. destruct r as [|d r]; [easy|]. cbn in E. injection E as E _.
  destruct (Hh d r eq_refl) as [Hd| ->].
  - rewrite lower_digit in E by exact Hd. congruence.
  - cbn in E. congruence.
Qed.

Lemma literal_head ints point fracs ex : point = [46] \/ (point = [] /\ fracs = []) ->
  all_digits ints -> ints ++ fracs <> [] ->
  let r := text_of ints ++ point ++ text_of fracs ++ ex in
  r <> [] /\ forall d r', r = d :: r' -> is_digit d = true \/ d = 46.
Proof.
  intros Hp Hi Hne r. unfold r. destruct ints as [|i ints].
  - destruct Hp as [->|[-> ->]]; [|easy]. cbn. split; [easy|]. intros d r' E. injection E as <- _. now right.
  - cbn. split; [easy|]. intros d r' E. injection E as <- _. left. apply is_digit_spec.
    apply Forall_cons in Hi. lia.
Qed.

Lemma parse_literal t a b : literal t a b -> parse_f64 t = Some (to_f64 false a b).
Proof.
  intros H. destruct H as [plus ints point fracs ex e Hplus Hpoint Hi Hf Hne He].
  pose proof (literal_head ints point fracs ex Hpoint Hi Hne) as Hh. cbv zeta in Hh.
  pose proof (read_number_text ints point fracs ex e Hpoint Hi Hf Hne He) as Hr.
  generalize dependent (text_of ints ++ point ++ text_of fracs ++ ex). intros r [Hr0 Hh] Hr.
  assert (Hs : read_sign (plus ++ r) = (false, r)).
  { destruct Hplus as [-> | ->]; [|reflexivity]. cbn [app]. destruct r as [|d r]; [easy|].
    cbn. destruct (N.eqb_spec d 43) as [->|]; [destruct (Hh 43 r eq_refl); easy|].
    destruct (N.eqb_spec d 45) as [->|]; [destruct (Hh 45 r eq_refl); easy|]. reflexivity. }
  unfold parse_f64. rewrite Hs.
  rewrite !bool_decide_eq_false_2; try (apply map_lower_head; easy).
  cbn [orb]. now rewrite Hr.
Qed.

Lemma to_f64_sign s a b s' n d : to_f64 s a b = FFin s' n d -> s' = s.
Proof.
  unfold to_f64. destruct (a =? 0); [congruence|]. cbv zeta. destruct (scaled a b _) as [p q].
  destruct (scaled _ 1 _) as [n' d']. destruct (_ <=? _); congruence.
Qed.

Lemma read_exponent_inv ex e : read_exponent ex = Some e -> exponent_text ex e.
Proof.
  unfold read_exponent. destruct ex as [|c r]; [intros [= <-]; constructor|].
  destruct (N.eqb_spec (lower c) 101) as [Hl|]; [|discriminate].
  assert (Hc : c = 101 \/ c = 69).
  { unfold lower in Hl. destruct ((65 <=? c) && (c <=? 90)); lia. }
  destruct (read_sign r) as [negative r1] eqn:Es. destruct (digits r1) as [ds rest] eqn:Ed.
  destruct (bool_decide_reflect (ds = [])) as [|Hne]; [discriminate|].
  destruct (bool_decide_reflect (rest = [])) as [->|]; [|discriminate].
  destruct (digits_split r1 ds [] Ed) as (-> & Hds & _). rewrite app_nil_r in *.
  destruct (digit_chars ds Hds) as (vs & Hvs & ->). rewrite digits_value_text.
  assert (Hvne : vs <> []) by (intros ->; easy).
  assert (Hs : exists sign, r = sign ++ text_of vs /\ (sign = [] \/ sign = [43] \/ sign = [45]) /\
    negative = bool_decide (sign = [45])).
  { destruct r as [|x r]; cbn in Es.
    - apply pair_equal_spec in Es. destruct Es as [<- Es]. exists []. rewrite <- Es. auto.
    - destruct (N.eqb_spec x 43) as [->|].
      + apply pair_equal_spec in Es. destruct Es as [<- ->]. exists [43]. auto.
      + destruct (N.eqb_spec x 45) as [->|].
        * apply pair_equal_spec in Es. destruct Es as [<- ->]. exists [45]. auto.
        * apply pair_equal_spec in Es. destruct Es as [<- ->]. exists []. auto. }
  destruct Hs as (sign & -> & Hsg & ->). intros [= <-]. now constructor.
Qed.

Lemma parse_inv t n d : parse_f64 t = Some (FFin false n d) -> n <> 0 ->
  exists a b, literal t a b /\ 0 < a /\ to_f64 false a b = FFin false n d.
Proof.
  unfold parse_f64. destruct (read_sign t) as [negative r] eqn:Es.
  destruct (bool_decide (map lower r = word_inf) || bool_decide (map lower r = word_infinity)); [discriminate|].
  destruct (bool_decide (map lower r = word_nan)); [discriminate|].
  destruct (read_number r) as [[a b]|] eqn:En; [|discriminate].
  intros Hf Hn. assert (Hf' : to_f64 negative a b = FFin false n d) by congruence. clear Hf.
  pose proof (to_f64_sign _ _ _ _ _ _ Hf') as <-.
  assert (Ht : exists plus, t = plus ++ r /\ (plus = [] \/ plus = [43])).
  { destruct t as [|x t]; cbn in Es.
    - apply pair_equal_spec in Es. destruct Es as [_ <-]. exists []. auto.
    - destruct (N.eqb_spec x 43) as [->|].
      + apply pair_equal_spec in Es. destruct Es as [_ ->]. exists [43]. auto.
      + destruct (N.eqb_spec x 45) as [->|].
        * apply pair_equal_spec in Es. destruct Es as [E _]. discriminate.
        * apply pair_equal_spec in Es. destruct Es as [_ <-]. exists []. auto. }
  destruct Ht as (plus & -> & Hplus).
  exists a, b. split; [|split; [|exact Hf']].
  - unfold read_number in En. destruct (digits r) as [ics r1] eqn:Ed.
    destruct (digits_split _ _ _ Ed) as (-> & Hi & Hr1). destruct (digit_chars ics Hi) as (ints & Hints & ->).
    assert (Hp : exists point fracs r2, r1 = point ++ text_of fracs ++ r2 /\ all_digits fracs /\
      (point = [46] \/ (point = [] /\ fracs = [])) /\
      match r1 with c :: r' => if c =? 46 then digits r' else ([], r1) | [] => ([], []) end = (text_of fracs, r2)).
    { destruct r1 as [|c r1]; [exists [], [], []; repeat match goal with |- _ /\ _ => split end; auto; constructor|].
      destruct (N.eqb_spec c 46) as [->|].
      - destruct (digits r1) as [fcs r2] eqn:Ed2. destruct (digits_split _ _ _ Ed2) as (-> & Hf & _).
        destruct (digit_chars fcs Hf) as (fracs & Hfr & ->). exists [46], fracs, r2. auto.
      - exists [], [], (c :: r1). repeat match goal with |- _ /\ _ => split end; auto; constructor. }
    destruct Hp as (point & fracs & r2 & -> & Hfr & Hpoint & Hm). rewrite Hm in En.
    destruct (bool_decide_reflect (text_of ints ++ text_of fracs = [])) as [|Hne]; [discriminate|].
    destruct (read_exponent r2) as [e|] eqn:Ee; [|discriminate].
    rewrite decimal_eq in En. assert (Hab : (a, b) = (digits_value (text_of ints ++ text_of fracs) * 10 ^ Z.to_N e,
      10 ^ N.of_nat (length (text_of fracs)) * 10 ^ Z.to_N (- e))) by congruence. clear En.
    apply pair_equal_spec in Hab. destruct Hab as [-> ->].
    replace (text_of ints ++ text_of fracs) with (text_of (ints ++ fracs)) by apply map_app.
    replace (length (text_of fracs)) with (length fracs) by (symmetry; apply map_length).
    rewrite digits_value_text. constructor; try assumption.
    + intros E. apply Hne. unfold text_of. rewrite <- map_app, E. reflexivity.
    + now apply read_exponent_inv.
  - destruct (N.eq_dec a 0) as [->|]; [|lia]. cbn in Hf'. congruence.
Qed.

(** ** Trimming *)

Lemma is_space_spec c : is_space c = true <-> In c white_space.
Proof. unfold is_space, white_space. cbn [In]. lia. Qed.
Lemma spaces_spec l : Forall (fun c => In c white_space) l <-> Forall (fun c => is_space c = true) l.
Proof. split; intros H; apply (Forall_impl _ _ _ H); intros c; apply is_space_spec. Qed.

Lemma trim_start_split s : exists before, s = before ++ trim_start s /\
  Forall (fun c => is_space c = true) before.
Proof.
  induction s as [|c s (before & IH & Hb)]; cbn [trim_start]; [exists []; auto|].
  destruct (is_space c) eqn:E; [|exists []; auto].
  exists (c :: before). split; [cbn; congruence|]. now constructor.
Qed.

Lemma trim_padded s : padded s (trim s).
Proof.
  destruct (trim_start_split s) as (before & Hs & Hb).
  destruct (trim_start_split (rev (trim_start s))) as (after & Ha & Haf).
  exists before, (rev after). unfold trim. split; [|split; apply spaces_spec; [exact Hb|now apply Forall_rev]].
  rewrite <- rev_app_distr, <- Ha, rev_involutive. exact Hs.
Qed.

Lemma trim_start_spaces before t : Forall (fun c => is_space c = true) before ->
  match t with c :: _ => is_space c = false | [] => True end -> trim_start (before ++ t) = t.
Proof.
  intros Hb Ht. induction Hb as [|c before Hc _ IH]; cbn [app trim_start].
  - destruct t as [|c t]; [reflexivity|]. cbn. now rewrite Ht.
  - now rewrite Hc.
Qed.

Lemma trim_of_padded s t : padded s t -> t <> [] -> Forall (fun c => is_space c = false) t -> trim s = t.
Proof.
  intros (before & after & -> & Hb & Ha) Hne Ht. apply spaces_spec in Hb. apply spaces_spec in Ha. unfold trim. rewrite trim_start_spaces; [|exact Hb|].
  2:{ destruct t as [|c t]; [easy|]. cbn. now apply Forall_cons in Ht. }
  rewrite rev_app_distr. rewrite trim_start_spaces.
  - apply rev_involutive.
  - now apply Forall_rev.
  - apply Forall_rev in Ht. destruct (rev t) as [|c r]; [easy|]. now apply Forall_cons in Ht.
Qed.

Lemma digit_not_space c : is_digit c = true -> is_space c = false.
Proof. intros H. apply is_digit_spec in H. unfold is_space. lia. Qed.

Lemma literal_no_space t a b : literal t a b -> t <> [] /\ Forall (fun c => is_space c = false) t.
Proof.
  intros H. destruct H as [plus ints point fracs ex e Hplus Hpoint Hi Hf Hne He].
  assert (Hd : forall ds, all_digits ds -> Forall (fun c => is_space c = false) (text_of ds)).
  { intros ds H. apply text_is_digit in H. apply (Forall_impl _ _ _ H). exact digit_not_space. }
  split.
  - destruct (literal_head ints point fracs ex Hpoint Hi Hne) as [H _]. cbv zeta in H.
    intros E. apply app_eq_nil in E. tauto.
  - rewrite !Forall_app. repeat match goal with |- _ /\ _ => split end.
    + destruct Hplus as [-> | ->]; repeat constructor.
    + now apply Hd.
    + destruct Hpoint as [->|[-> _]]; repeat constructor.
    + now apply Hd.
    + destruct He as [|c sign ds Hc Hs Hds _]; [constructor|]. constructor.
      * destruct Hc as [-> | ->]; reflexivity.
      * rewrite Forall_app. split; [destruct Hs as [->|[->| ->]]; repeat constructor|now apply Hd].
Qed.

(** ** Results *)

Lemma parse_usd_micros_eq s :
  parse_usd_micros s = match parse_f64 (trim s) with Some f => to_micros f | None => Err PriceConversion end.
Proof. unfold parse_usd_micros, to_micros. destruct (parse_f64 (trim s)) as [[]|]; reflexivity. Qed.

Lemma literal_den t a b : literal t a b -> 0 < b.
Proof.
  intros H. destruct H. apply N.mul_pos_pos; apply N.neq_0_lt_0, N.pow_nonzero; lia.
Qed.

Lemma parse_padded s t a b : padded s t -> literal t a b ->
  parse_usd_micros s = to_micros (to_f64 false a b).
Proof.
  intros Hp Hl. rewrite parse_usd_micros_eq. destruct (literal_no_space t a b Hl) as [Hne Hs].
  rewrite (trim_of_padded s t Hp Hne Hs), (parse_literal t a b Hl). reflexivity.
Qed.

Lemma parse_accepted_inv s k : parse_usd_micros s = Ok k ->
  exists t a b, padded s t /\ literal t a b /\ 0 < a.
Proof.
  rewrite parse_usd_micros_eq. intros H. exists (trim s).
  destruct (parse_f64 (trim s)) as [[| |negative n d]|] eqn:E; try discriminate.
  cbn [to_micros] in H. destruct negative; [discriminate|]. cbn [orb] in H.
  destruct (N.eqb_spec n 0) as [|Hn]; [discriminate|].
  destruct (parse_inv (trim s) n d E Hn) as (a & b & Hl & Ha & _).
  exists a, b. split; [apply trim_padded|]. auto.
Qed.

(** A whole number of micros is read exactly. *)
Lemma near_exact a b k m : 0 < b -> 1000000 * a = m * b ->
  2 ^ 52 * (k * b) <= 2 ^ 51 * b + 2 ^ 52 * (1000000 * a) + 2 * (1000000 * a) ->
  2 ^ 52 * (1000000 * a) <= 2 ^ 51 * b + 2 ^ 52 * (k * b) + 2 * (1000000 * a) ->
  m < 2 ^ 50 -> k = m.
Proof.
  intros Hb -> H1 H2 H3. change (2 ^ 52) with 4503599627370496 in *. change (2 ^ 51) with 2251799813685248 in *.
  change (2 ^ 50) with 1125899906842624 in *.
  assert (A : 4503599627370496 * k <= 2251799813685248 + 4503599627370496 * m + 2 * m).
  { apply (N.mul_le_mono_pos_r _ _ b Hb). lia. }
  assert (B : 4503599627370496 * m <= 2251799813685248 + 4503599627370496 * k + 2 * m).
  { apply (N.mul_le_mono_pos_r _ _ b Hb). lia. }
  lia.
Qed.
