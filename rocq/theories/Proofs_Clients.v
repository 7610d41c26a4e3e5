(** The proofs of the theorems and examples of [Props_Clients.v]. *)
From Verif Require Export PricingFacts PrimeFacts.
Open Scope N_scope.

Lemma C55_accepted_is_near_proof s k :
  forall (Haccepted : parse_usd_micros s = Ok k),
  1 <= k /\ k < 2 ^ 64 /\
  exists t a b, padded s t /\ literal t a b /\ 0 < a /\ 0 < b /\
    2 ^ 52 * (k * b) <= 2 ^ 51 * b + 2 ^ 52 * (1000000 * a) + 2 * (1000000 * a) /\
    2 ^ 52 * (1000000 * a) <= 2 ^ 51 * b + 2 ^ 52 * (k * b) + 2 * (1000000 * a).
Proof.
  intros H. destruct (parse_accepted_inv s k H) as (t & a & b & Hp & Hl & Ha).
  pose proof (literal_den t a b Hl) as Hb. rewrite (parse_padded s t a b Hp Hl) in H.
  destruct (to_micros_spec a b Ha Hb _ H) as [Hn _]. destruct (Hn k eq_refl) as (H1 & H2 & H3 & H4).
  split; [exact H1|]. split; [exact H2|]. exists t, a, b. auto 8.
Qed.

Lemma C55_accepts_proof s t a b :
  forall (Hpadded : padded s t) (Hnumber : literal t a b)
    (Hmin : b <= 1000000 * a) (Hmax : 1000000 * a <= 2 ^ 63 * b),
  exists k, parse_usd_micros s = Ok k.
Proof.
  intros Hp Hl H1 H2. pose proof (literal_den t a b Hl) as Hb.
  assert (Ha : 0 < a) by lia. rewrite (parse_padded s t a b Hp Hl).
  destruct (to_micros_spec a b Ha Hb _ eq_refl) as [_ Hn]. exact (Hn H1 H2).
Qed.

Lemma C55_exact_proof s t a b m :
  forall (Hpadded : padded s t) (Hnumber : literal t a b)
    (Hwhole : 1000000 * a = m * b) (Hmin : 1 <= m) (Hmax : m < 2 ^ 50),
  parse_usd_micros s = Ok m.
Proof.
  intros Hp Hl Hw H1 H2. pose proof (literal_den t a b Hl) as Hb. assert (Ha : 0 < a) by nia.
  rewrite (parse_padded s t a b Hp Hl). destruct (to_micros_spec a b Ha Hb _ eq_refl) as [Hn Ha'].
  destruct Ha' as [k Hk].
  - nia.
  - rewrite Hw. apply N.mul_le_mono_r. assert (2 ^ 50 <= 2 ^ 63) by (vm_compute; discriminate). lia.
  - rewrite Hk. destruct (Hn k Hk) as (_ & _ & U & L). f_equal. exact (near_exact a b k m Hb Hw U L H2).
Qed.

Lemma C55_example_proof :
  padded [32; 48; 46; 50; 51; 51; 55; 32] [48; 46; 50; 51; 51; 55] /\
  literal [48; 46; 50; 51; 51; 55] 2337 10000 /\ 1000000 * 2337 = 233700 * 10000 /\
  parse_usd_micros [32; 48; 46; 50; 51; 51; 55; 32] = Ok 233700 /\
  parse_usd_micros [48; 46; 50; 51; 51; 55; 48; 48; 53] = Ok 233701 /\
  parse_usd_micros [53; 101; 45; 55] = Ok 1 /\ parse_usd_micros [52; 101; 45; 55] = Err PriceConversion /\
  parse_usd_micros [45; 49] = Err PriceConversion /\ parse_usd_micros [78; 97; 78] = Err PriceConversion /\
  parse_usd_micros [49; 101; 52; 48; 48] = Err PriceConversion /\ parse_usd_micros [] = Err PriceConversion.
Proof.
  split. { exists [32], [32]. repeat constructor; cbn; tauto. }
  split. { apply (literal_intro [] [0] [46] [2; 3; 3; 7] [] 0); repeat constructor; easy. }
  repeat match goal with |- _ /\ _ => split end; vm_compute; reflexivity.
Qed.
