(** Facts about the calibrator: the error of a chain of floating point operations. *)
From Coq Require Import QArith Qabs Lqa.
From Verif Require Export CalibratorSpec PricingFacts NodeFacts.
Open Scope Q_scope.

(** ** Fractions *)

Notation NQ := number (only parsing).

Lemma NQ_add a b : NQ (a + b) == NQ a + NQ b.
Proof. unfold number. rewrite N2Z.inj_add, inject_Z_plus. reflexivity. Qed.
Lemma NQ_mul a b : NQ (a * b) == NQ a * NQ b.
Proof. unfold number. rewrite N2Z.inj_mul, inject_Z_mult. reflexivity. Qed.
Lemma NQ_le a b : (a <= b)%N <-> NQ a <= NQ b.
Proof. unfold number. rewrite <- Zle_Qle. lia. Qed.
Lemma NQ_lt a b : (a < b)%N <-> NQ a < NQ b.
Proof. unfold number. rewrite <- Zlt_Qlt. lia. Qed.
Lemma NQ_pos a : (0 < a)%N <-> 0 < NQ a.
Proof. apply (NQ_lt 0 a). Qed.
Lemma NQ_nonneg a : 0 <= NQ a.
Proof. apply (NQ_le 0 a). lia. Qed.

Lemma div_le_cross a b c : 0 < b -> (a / b <= c <-> a <= c * b).
Proof.
  intros Hb. split; intros H.
  - assert (E : a == a / b * b) by (field; lra). rewrite E. apply Qmult_le_compat_r; [exact H|lra].
  - apply Qle_shift_div_r; [exact Hb|exact H].
Qed.
Lemma le_div_cross a b c : 0 < b -> (c <= a / b <-> c * b <= a).
Proof.
  intros Hb. split; intros H.
  - assert (E : a == a / b * b) by (field; lra). rewrite E. apply Qmult_le_compat_r; [exact H|lra].
  - apply Qle_shift_div_l; [exact Hb|exact H].
Qed.

Lemma frac_eq n d : frac n d = NQ n / NQ d.
Proof. reflexivity. Qed.
Lemma frac_pos n d : (0 < n)%N -> (0 < d)%N -> 0 < frac n d.
Proof. intros Hn%NQ_pos Hd%NQ_pos. rewrite frac_eq. apply Qlt_shift_div_l; lra. Qed.
Lemma frac_nonneg n d : (0 < d)%N -> 0 <= frac n d.
Proof. intros Hd%NQ_pos. rewrite frac_eq. apply le_div_cross; [exact Hd|]. pose proof (NQ_nonneg n). lra. Qed.
Lemma frac_mul a b c d : (0 < b)%N -> (0 < d)%N -> frac (a * c) (b * d) == frac a b * frac c d.
Proof. intros Hb%NQ_pos Hd%NQ_pos. rewrite !frac_eq, !NQ_mul. field. split; lra. Qed.
Lemma frac_div a b c d : (0 < b)%N -> (0 < c)%N -> (0 < d)%N -> frac (a * d) (b * c) == frac a b / frac c d.
Proof. intros Hb%NQ_pos Hc%NQ_pos Hd%NQ_pos. rewrite !frac_eq, !NQ_mul. field. repeat split; lra. Qed.
Lemma frac_add a b c d : (0 < b)%N -> (0 < d)%N -> frac (a * d + c * b) (b * d) == frac a b + frac c d.
Proof. intros Hb%NQ_pos Hd%NQ_pos. rewrite !frac_eq, NQ_add, !NQ_mul. field. split; lra. Qed.
Lemma frac_0 d : frac 0 d == 0.
Proof. rewrite frac_eq. change (NQ 0) with 0. unfold Qdiv. apply Qmult_0_l. Qed.
Lemma frac_1 n : frac n 1 == NQ n.
Proof. rewrite frac_eq. change (NQ 1) with 1. field. Qed.

(** ** Relative errors *)

Definition step : Q := inject_Z (2 ^ 52) / inject_Z (2 ^ 52 - 1).
Fixpoint steps (k : nat) : Q := match k with O => 1 | S k => step * steps k end.

Lemma step_ge : 1 <= step.
Proof. vm_compute. discriminate. Qed.
Lemma steps_ge k : 1 <= steps k.
Proof. induction k as [|k IH]; cbn [steps]; [lra|]. pose proof step_ge. nra. Qed.
Lemma steps_add j k : steps (j + k) == steps j * steps k.
Proof. induction j as [|j IH]; cbn [steps Nat.add]; [ring|]. rewrite IH. ring. Qed.
Lemma steps_mono j k : (j <= k)%nat -> steps j <= steps k.
Proof.
  intros H. replace k with (j + (k - j))%nat by lia. rewrite steps_add.
  pose proof (steps_ge j). pose proof (steps_ge (k - j)). nra.
Qed.
Lemma steps_small k : (k <= 40)%nat -> steps k <= 2.
Proof. intros H. apply Qle_trans with (1 := steps_mono k 40 H). vm_compute. discriminate. Qed.

Definition near (k : nat) (x y : Q) : Prop := x <= steps k * y /\ y <= steps k * x.

Lemma near_refl x : near 0 x x.
Proof. unfold near; cbn; lra. Qed.
Lemma near_trans j k x y z : near j x y -> near k y z -> near (j + k) x z.
Proof.
  unfold near. rewrite steps_add. intros [A B] [C D]. pose proof (steps_ge j). pose proof (steps_ge k).
  generalize dependent (steps j). generalize dependent (steps k). intros. split; nra.
Qed.
Lemma near_weaken j k x y : (j <= k)%nat -> 0 <= x -> 0 <= y -> near j x y -> near k x y.
Proof. unfold near. intros H%steps_mono Hx Hy [A B]. split; nra. Qed.
Lemma mul_le_both a b c d : 0 <= a -> 0 <= b -> a <= c -> b <= d -> a * b <= c * d.
Proof. intros. nra. Qed.

Lemma near_mul j k x y x' y' : 0 <= x -> 0 <= y -> 0 <= x' -> 0 <= y' ->
  near j x y -> near k x' y' -> near (j + k) (x * x') (y * y').
Proof.
  unfold near. rewrite steps_add. intros Hx Hy Hx' Hy' [A B] [C D]. split.
  - setoid_replace (steps j * steps k * (y * y')) with ((steps j * y) * (steps k * y')) by ring.
    apply mul_le_both; assumption.
  - setoid_replace (steps j * steps k * (x * x')) with ((steps j * x) * (steps k * x')) by ring.
    apply mul_le_both; assumption.
Qed.
Lemma near_inv k x y : 0 < x -> 0 < y -> near k x y -> near k (/ x) (/ y).
Proof.
  unfold near. intros Hx Hy [A B]. pose proof (steps_ge k) as Hs. generalize dependent (steps k). intros s A B Hs.
  assert (Ex : / x == (/ x * / y) * y) by (field; lra). assert (Ey : / y == (/ x * / y) * x) by (field; lra).
  assert (P : 0 < / x * / y). { apply Qinv_lt_0_compat in Hx, Hy. nra. }
  generalize dependent (/ x * / y). intros p Ex Ey Hp. rewrite Ex, Ey. split; nra.
Qed.
Lemma near_div j k x y x' y' : 0 <= x -> 0 <= y -> 0 < x' -> 0 < y' ->
  near j x y -> near k x' y' -> near (j + k) (x / x') (y / y').
Proof.
  intros Hx Hy Hx' Hy' H H'. unfold Qdiv. apply near_mul; try assumption.
  - apply Qlt_le_weak, Qinv_lt_0_compat, Hx'.
  - apply Qlt_le_weak, Qinv_lt_0_compat, Hy'.
  - now apply near_inv.
Qed.
Lemma near_add k x y x' y' : near k x y -> near k x' y' -> near k (x + x') (y + y').
Proof. unfold near. intros [A B] [C D]. split; lra. Qed.
Lemma near_eq k x y x' y' : x == x' -> y == y' -> near k x y -> near k x' y'.
Proof. unfold near. intros -> ->. auto. Qed.
Lemma near_bounds k x y : (k <= 40)%nat -> 0 <= x -> 0 <= y -> near k x y -> x <= 2 * y /\ y <= 2 * x.
Proof. intros H%steps_small Hx Hy [A B]. split; nra. Qed.

(** ** Ranges *)

Definition between (p : N) (y : Q) : Prop := 1 <= NQ (2 ^ p) * y /\ y <= NQ (2 ^ p).

Lemma pow_NQ_pos p : 1 <= NQ (2 ^ p).
Proof. apply (NQ_le 1). pose proof (pow2_pos p). lia. Qed.
Lemma NQ_pow_add p q : NQ (2 ^ (p + q)) == NQ (2 ^ p) * NQ (2 ^ q).
Proof. rewrite N.pow_add_r, NQ_mul. reflexivity. Qed.
Lemma between_pos p y : between p y -> 0 < y.
Proof. unfold between. intros [A _]. pose proof (pow_NQ_pos p). nra. Qed.
Lemma between_mono p q y : (p <= q)%N -> between p y -> between q y.
Proof.
  intros Hle H. pose proof (between_pos p y H) as Hy. destruct H as [A B].
  assert (H : NQ (2 ^ p) <= NQ (2 ^ q)) by (apply NQ_le, N.pow_le_mono_r; lia). split; nra.
Qed.
Lemma between_mul p q y z : between p y -> between q z -> between (p + q) (y * z).
Proof.
  intros Hy Hz. pose proof (between_pos p y Hy) as Py. pose proof (between_pos q z Hz) as Pz.
  destruct Hy as [A B], Hz as [C D]. unfold between. rewrite NQ_pow_add.
  generalize dependent (NQ (2 ^ p)). generalize dependent (NQ (2 ^ q)). intros Q C D P A B. split.
  - setoid_replace (P * Q * (y * z)) with ((P * y) * (Q * z)) by ring.
    change 1 with (1 * 1). apply mul_le_both; lra.
  - apply mul_le_both; lra.
Qed.
Lemma between_inv p y : between p y -> between p (/ y).
Proof.
  intros Hy. pose proof (between_pos p y Hy) as Py. destruct Hy as [A B]. unfold between.
  generalize dependent (NQ (2 ^ p)). intros P A B. split.
  - apply (le_div_cross P y 1 Py). lra.
  - setoid_replace (/ y) with (1 / y) by (field; lra). apply (div_le_cross 1 y P Py). lra.
Qed.
Lemma between_div p q y z : between p y -> between q z -> between (p + q) (y / z).
Proof. intros Hy Hz. apply between_mul; [exact Hy|now apply between_inv]. Qed.

(** ** Floats near a number *)

(** A non-negative float, near [y]. *)
Definition approx (k : nat) (x : f64) (y : Q) : Prop :=
  exists n d, x = FFin false n d /\ (0 < d)%N /\ 0 <= y /\ near k (frac n d) y.

Lemma near_pos k x y : 0 < y -> near k x y -> 0 < x.
Proof. unfold near. intros Hy [_ H]. pose proof (steps_ge k). nra. Qed.

Lemma approx_eq k x y y' : y == y' -> approx k x y -> approx k x y'.
Proof.
  intros E (n & d & Hx & Hd & Hy & Hn). exists n, d. split; [exact Hx|]. split; [exact Hd|].
  split; [now rewrite <- E|]. now apply (near_eq k (frac n d) y).
Qed.
Lemma approx_weaken j k x y : (j <= k)%nat -> approx j x y -> approx k x y.
Proof.
  intros H (n & d & Hx & Hd & Hy & Hn). exists n, d. repeat (split; [assumption|]).
  apply near_weaken with j; auto. now apply frac_nonneg.
Qed.

Lemma round_near s a b : (0 < a)%N -> (0 < b)%N -> between 990 (frac a b) ->
  exists n d, to_f64 s a b = FFin s n d /\ (0 < d)%N /\ near 1 (frac n d) (frac a b).
Proof.
  intros Ha Hb [H1 H2]. rewrite to_f64_chosen by exact Ha. destruct (chosen a b) as [n d] eqn:E.
  pose proof (proj1 (NQ_pos b) Hb) as Qb.
  assert (L : (b <= a * 2 ^ 990)%N).
  { apply NQ_le. rewrite NQ_mul. rewrite frac_eq in H1. clear H2 E.
    assert (X : NQ (2 ^ 990) * (NQ a / NQ b) == (NQ a * NQ (2 ^ 990)) / NQ b) by (field; lra).
    rewrite X in H1. apply le_div_cross in H1; [|exact Qb]. lra. }
  assert (U : (a <= 2 ^ 990 * b)%N).
  { apply NQ_le. rewrite NQ_mul. rewrite frac_eq in H2. now apply div_le_cross in H2. }
  assert (L' : (b <= a * 2 ^ 1000)%N).
  { transitivity (a * 2 ^ 990)%N; [exact L|]. apply N.mul_le_mono_l, N.pow_le_mono_r; lia. }
  destruct (chosen_err a b n d Ha Hb L' E) as (Hd & N1 & N2).
  assert (Hfin : (n < d * 2 ^ 1024)%N).
  { assert (K : (b * n <= b * (2 * (2 ^ 990 * d)))%N).
    { transitivity (2 * (a * d))%N.
      - change (2 ^ 53)%N with 9007199254740992%N in N1. nia.
      - nia. }
    apply N.mul_le_mono_pos_l in K; [|exact Hb]. apply N.le_lt_trans with (1 := K).
    change (2 ^ 1024)%N with (2 ^ 34 * 2 ^ 990)%N. pose proof (pow2_pos 990) as Hp. generalize dependent (2 ^ 990)%N. intros X _ _ _ Hp.
    change (2 ^ 34)%N with 17179869184%N. nia. }
  rewrite (proj2 (N.leb_gt _ _) Hfin). exists n, d. split; [reflexivity|]. split; [exact Hd|].
  apply NQ_pos in Hd. apply NQ_le in N1, N2. rewrite !NQ_add, !NQ_mul in N1, N2. clear - N1 N2 Hd Qb Ha.
  unfold near. cbn [steps]. rewrite !frac_eq.
  set (x := NQ n / NQ d). set (y := NQ a / NQ b).
  assert (En : NQ n == x * NQ d) by (unfold x; field; lra). assert (Ea : NQ a == y * NQ b) by (unfold y; field; lra).
  assert (Hy : 0 <= y) by (apply le_div_cross; [exact Qb|]; pose proof (NQ_nonneg a); lra).
  rewrite En, Ea in N1, N2. clearbody x y. clear En Ea Ha.
  assert (P : 0 < NQ d * NQ b) by nra.
  assert (M1 : NQ (2 ^ 53) * x <= NQ (2 ^ 53) * y + y) by (apply (Qmult_le_r _ _ _ P); lra).
  assert (M2 : NQ (2 ^ 53) * y <= NQ (2 ^ 53) * x + y) by (apply (Qmult_le_r _ _ _ P); lra).
  clear N1 N2 P Hd Qb. setoid_replace step with (4503599627370496 # 4503599627370495) by reflexivity.
  change (NQ (2 ^ 53)) with 9007199254740992 in *.
  split; lra.
Qed.

Lemma approx_round k a b y : (k <= 40)%nat -> (0 < b)%N -> between 980 y -> near k (frac a b) y ->
  approx (S k) (to_f64 false a b) y.
Proof.
  intros Hk Hb Hy Hn. pose proof (between_pos _ _ Hy) as Py.
  pose proof (near_pos _ _ _ Py Hn) as Px.
  assert (Ha : (0 < a)%N).
  { destruct (N.eq_dec a 0) as [->|]; [|lia]. exfalso. rewrite frac_0 in Px. now apply Qlt_irrefl in Px. }
  destruct (near_bounds k _ _ Hk (Qlt_le_weak _ _ Px) (Qlt_le_weak _ _ Py) Hn) as [B1 B2].
  assert (Hf : between 990 (frac a b)).
  { destruct Hy as [A B]. unfold between. change 990%N with (10 + 980)%N. rewrite NQ_pow_add.
    pose proof (pow_NQ_pos 980). generalize dependent (NQ (2 ^ 980)). intros X A B HX. change (NQ (2 ^ 10)) with 1024. split; nra. }
  destruct (round_near false a b Ha Hb Hf) as (n & d & E & Hd & Hnear). exists n, d.
  split; [exact E|]. split; [exact Hd|]. split; [lra|]. change (S k) with (1 + k)%nat. now apply near_trans with (frac a b).
Qed.

Lemma approx_mul j k x y x' y' : (j + k <= 40)%nat -> between 980 (y * y') ->
  approx j x y -> approx k x' y' -> approx (S (j + k)) (f64_mul x x') (y * y').
Proof.
  intros Hjk Hb (n & d & -> & Hd & Hy & Hn) (n' & d' & -> & Hd' & Hy' & Hn'). cbn [f64_mul xorb].
  apply approx_round; [exact Hjk|lia|exact Hb|].
  apply (near_eq _ (frac n d * frac n' d') (y * y')); [|reflexivity|].
  - symmetry. now apply frac_mul.
  - apply near_mul; auto using frac_nonneg.
Qed.

Lemma approx_div j k x y x' y' : (j + k <= 40)%nat -> between 980 (y / y') -> 0 < y' ->
  approx j x y -> approx k x' y' -> approx (S (j + k)) (f64_div x x') (y / y').
Proof.
  intros Hjk Hb Py' (n & d & -> & Hd & Hy & Hn) (n' & d' & -> & Hd' & Hy' & Hn').
  pose proof (near_pos _ _ _ Py' Hn') as Px'. cbn [f64_div xorb].
  destruct (N.eqb_spec n' 0) as [->|Hn0].
  { exfalso. rewrite frac_0 in Px'. now apply Qlt_irrefl in Px'. }
  apply approx_round; [exact Hjk|lia|exact Hb|].
  apply (near_eq _ (frac n d / frac n' d') (y / y')); [|reflexivity|].
  - symmetry. apply frac_div; lia.
  - apply near_div; auto using frac_nonneg.
Qed.

Lemma approx_add k x y x' y' : (k <= 40)%nat -> between 980 (y + y') ->
  approx k x y -> approx k x' y' -> approx (S k) (f64_add x x') (y + y').
Proof.
  intros Hk Hb (n & d & -> & Hd & Hy & Hn) (n' & d' & -> & Hd' & Hy' & Hn'). cbn [f64_add Bool.eqb].
  apply approx_round; [exact Hk|lia|exact Hb|].
  apply (near_eq _ (frac n d + frac n' d') (y + y')); [|reflexivity|].
  - symmetry. now apply frac_add.
  - now apply near_add.
Qed.

Lemma approx_of_frac a b : (0 < b)%N -> between 980 (frac a b) -> approx 1 (to_f64 false a b) (frac a b).
Proof. intros Hb H. apply (approx_round 0); [lia|exact Hb|exact H|apply near_refl]. Qed.

Lemma approx_zero b k : approx k (to_f64 false 0 b) 0.
Proof.
  exists 0%N, 1%N. split; [reflexivity|]. split; [lia|]. split; [lra|].
  unfold near. rewrite frac_0. split; lra.
Qed.

Lemma between_N p n : (1 <= n)%N -> (n <= 2 ^ p)%N -> between p (NQ n).
Proof.
  intros H1 H2. apply NQ_le in H1, H2. change (NQ 1) with 1 in H1. pose proof (pow_NQ_pos p). split; nra.
Qed.

Lemma approx_of n : (n < 2 ^ 100)%N -> approx 1 (f64_of n) (NQ n).
Proof.
  intros H. unfold f64_of. destruct (N.eq_dec n 0) as [->|Hn].
  - apply approx_zero.
  - apply approx_eq with (frac n 1); [apply frac_1|]. apply approx_of_frac; [lia|].
    assert (B : between 980 (NQ n)).
    { apply between_mono with 100%N; [lia|]. apply between_N; lia. }
    unfold between in *. now rewrite frac_1.
Qed.

(** ** The formula *)

Lemma near_close k x y : (k <= 20)%nat -> 0 <= x -> 0 <= y -> near k x y -> close x y.
Proof.
  intros Hk Hx Hy Hn. pose proof (near_weaken _ 20 _ _ Hk Hx Hy Hn) as [A B]. unfold close.
  assert (S20 : steps 20 <= 1 + (1 # 140737488355328)) by (vm_compute; discriminate).
  pose proof (steps_ge 20) as S1. generalize dependent (steps 20). intros s A B S20 S1.
  setoid_replace (y / number (2 ^ 47)) with ((1 # 140737488355328) * y) by (apply Qmult_comm).
  apply Qabs_Qle_condition. split; nra.
Qed.

Lemma between_eq p x y : x == y -> between p x -> between p y.
Proof. unfold between. intros ->. auto. Qed.

Lemma ordinary_between a b : ordinary a b -> between 40 (frac a b).
Proof.
  intros (Hb & H1 & H2). apply NQ_le in H1, H2. rewrite NQ_mul in H1, H2. apply NQ_pos in Hb.
  assert (HT : NQ (10 ^ 12) <= NQ (2 ^ 40)) by (apply NQ_le; vm_compute; discriminate).
  pose proof (NQ_nonneg a). rewrite frac_eq. unfold between.
  set (T := NQ (2 ^ 40)) in *. set (t := NQ (10 ^ 12)) in *. clearbody T t. split.
  - setoid_replace (T * (NQ a / NQ b)) with ((T * NQ a) / NQ b) by (field; lra). apply le_div_cross; [exact Hb|]. nra.
  - apply div_le_cross; [exact Hb|]. nra.
Qed.

Lemma ordinary_pos a b : ordinary a b -> (0 < a)%N /\ (0 < b)%N.
Proof. intros (Hb & H1 & _). split; [|exact Hb]. destruct (N.eq_dec a 0) as [->|]; lia. Qed.

(** An ordinary float is itself, exactly. *)
Lemma approx_exact a b : (0 < b)%N -> approx 0 (FFin false a b) (frac a b).
Proof. intros Hb. exists a, b. split; [reflexivity|]. split; [exact Hb|]. split; [now apply frac_nonneg|apply near_refl]. Qed.

Lemma approx_secs nanos : (0 < nanos)%N -> (nanos < 2 ^ 64 * 10 ^ 9)%N ->
  between 124 (frac nanos (10 ^ 9)) /\ approx 4 (as_secs_f64 nanos) (frac nanos (10 ^ 9)).
Proof.
  intros H0 H1.
  assert (Bn : between 94 (number nanos)).
  { apply between_N; [lia|]. apply N.lt_le_incl, N.lt_le_trans with (1 := H1). vm_compute. discriminate. }
  assert (Bg : between 30 (number (10 ^ 9))) by (apply between_N; vm_compute; discriminate).
  assert (B : between 124 (frac nanos (10 ^ 9))) by (apply (between_div 94 30); assumption).
  split; [exact B|]. unfold as_secs_f64.
  pose proof (N.div_mod nanos (10 ^ 9) ltac:(vm_compute; discriminate)) as E.
  pose proof (N.mod_lt nanos (10 ^ 9) ltac:(vm_compute; discriminate)) as L.
  set (s := (nanos / 10 ^ 9)%N) in *. set (r := (nanos mod 10 ^ 9)%N) in *.
  assert (Hs : (s < 2 ^ 100)%N).
  { apply N.le_lt_trans with nanos; [|apply N.lt_trans with (1 := H1); reflexivity].
    rewrite E. change (10 ^ 9)%N with 1000000000%N. lia. }
  assert (Hr : (r < 2 ^ 100)%N) by (apply N.lt_trans with (1 := L); reflexivity).
  assert (Pg : 0 < number (10 ^ 9)) by reflexivity.
  assert (Ex : number s + number r / number (10 ^ 9) == frac nanos (10 ^ 9)).
  { rewrite frac_eq, E, NQ_add, NQ_mul. field. lra. }
  apply approx_eq with (number s + number r / number (10 ^ 9)); [exact Ex|].
  apply approx_add; [lia| | |].
  - apply between_eq with (frac nanos (10 ^ 9)); [now symmetry|]. apply between_mono with 124%N; [lia|exact B].
  - apply approx_weaken with 1%nat; [lia|]. now apply approx_of.
  - destruct (N.eq_dec r 0) as [Hr0|Hr0].
    + rewrite Hr0. change (f64_of 0) with (FFin false 0 1).
      apply approx_eq with 0; [change (number 0) with 0; field; lra|]. unfold f64_of. 
      destruct (to_f64 false (10 ^ 9) 1) as [|sg|sg n d] eqn:Eg; [vm_compute in Eg; discriminate..|].
      cbn [f64_div]. rewrite N.mul_0_l. destruct (N.eqb_spec n 0) as [->|_]; [vm_compute in Eg; discriminate|].
      destruct sg; [vm_compute in Eg; discriminate|]. apply approx_zero.
    + apply approx_div with (j := 1%nat) (k := 1%nat); [lia| |exact Pg|now apply approx_of|apply approx_of; reflexivity].
      apply between_mono with (94 + 30)%N; [lia|]. apply between_div; [|exact Bg].
      apply between_N; [lia|]. apply N.lt_le_incl, N.lt_le_trans with (1 := L). vm_compute. discriminate.
Qed.

Definition wanted (cost margin rate : Q) (gas nanos : N) : Q :=
  cost / (units_per_second gas nanos * 3600 * rate) * (1 + margin).

Lemma price_near c gas nanos jc cost jr rate margin :
  measured gas nanos -> (jc <= 1)%nat -> (jr <= 1)%nat ->
  approx jc (cal_cost_per_hour c) cost -> between 40 cost ->
  approx jr (cal_utilization_rate c) rate -> between 40 rate ->
  approx 1 (cal_profit_margin c) margin -> margin <= number (2 ^ 40) ->
  approx 6 (pgus_per_second (price_of c gas nanos)) (units_per_second gas nanos) /\
  approx 15 (pgu_price (price_of c gas nanos)) (wanted cost margin rate gas nanos) /\
  between 321 (wanted cost margin rate gas nanos) /\ between 188 (units_per_second gas nanos).
Proof.
  intros (Hg1 & Hg2 & Hn1 & Hn2) Hjc Hjr Ac Bc Ar Br Am Bm.
  apply (approx_weaken jc 1) in Ac; [|exact Hjc]. apply (approx_weaken jr 1) in Ar; [|exact Hjr].
  destruct (approx_secs nanos Hn1 Hn2) as [Bs As].
  assert (Bg : between 64 (number gas)) by (apply between_N; lia).
  assert (Ag : approx 1 (f64_of gas) (number gas)).
  { apply approx_of, N.lt_trans with (1 := Hg2). reflexivity. }
  assert (Bu : between 188 (units_per_second gas nanos)) by (apply (between_div 64 124); assumption).
  assert (Au : approx 6 (pgus_per_second (price_of c gas nanos)) (units_per_second gas nanos)).
  { unfold units_per_second, price_of. cbn [pgus_per_second]. apply (approx_div 1 4); try assumption; [lia| |].
    - apply between_mono with 188%N; [lia|exact Bu].
    - apply (between_pos _ _ Bs). }
  assert (B36 : between 12 (number 3600)) by (apply between_N; vm_compute; discriminate).
  assert (A36 : approx 1 (f64_of 3600) (number 3600)) by (apply approx_of; reflexivity).
  assert (Bh : between 200 (units_per_second gas nanos * 3600)) by (apply (between_mul 188 12); assumption).
  assert (Br2 : between 240 (units_per_second gas nanos * 3600 * rate)) by (apply (between_mul 200 40); assumption).
  assert (Bo : between 280 (cost / (units_per_second gas nanos * 3600 * rate))) by (apply (between_div 40 240); assumption).
  assert (Hm0 : 0 <= margin) by (destruct Am as (? & ? & _ & _ & Hm0 & _); exact Hm0).
  assert (B1m : between 41 (number 1 + margin)).
  { unfold between. change (number (2 ^ 40)) with 1099511627776 in Bm. change (number (2 ^ 41)) with 2199023255552.
    change (number 1) with 1. split; lra. }
  assert (A1m : approx 2 (f64_add (f64_of 1) (cal_profit_margin c)) (number 1 + margin)).
  { apply approx_add; [lia|now apply between_mono with 41%N; [lia|]| |exact Am]. apply approx_of. reflexivity. }
  assert (Bw : between 321 (wanted cost margin rate gas nanos)) by (apply (between_mul 280 41); assumption).
  split; [exact Au|]. split; [|split; assumption]. unfold price_of in *. cbn [pgu_price pgus_per_second] in *. unfold wanted.
  change 1 with (number 1) at 1. apply (approx_mul 12 2); [lia| | |exact A1m].
  - apply between_mono with 321%N; [lia|exact Bw].
  - apply (approx_div 1 10); [lia| | |exact Ac|].
    + apply between_mono with 280%N; [lia|exact Bo].
    + apply (between_pos _ _ Br2).
    + apply (approx_mul 8 1); [lia|now apply between_mono with 240%N; [lia|]| |exact Ar].
      apply (approx_mul 6 1); [lia|now apply between_mono with 200%N; [lia|]|exact Au|exact A36].
Qed.

Lemma wanted_income cost margin rate gas nanos : 0 < rate -> 0 < units_per_second gas nanos ->
  hourly_income (wanted cost margin rate gas nanos) rate gas nanos == cost * (1 + margin).
Proof. intros Hr Hu. unfold hourly_income, wanted. field. split; lra. Qed.

Lemma close_value k x y : (k <= 20)%nat -> approx k x y -> exists n d, x = FFin false n d /\ (0 < d)%N /\ close (frac n d) y.
Proof.
  intros Hk (n & d & -> & Hd & Hy & Hn). exists n, d. split; [reflexivity|]. split; [exact Hd|].
  apply near_close with k; auto using frac_nonneg.
Qed.

Lemma close_income k x y rate gas nanos t : (k <= 20)%nat -> approx k x y -> 0 < rate -> 0 < units_per_second gas nanos ->
  hourly_income y rate gas nanos == t ->
  exists n d, x = FFin false n d /\ (0 < d)%N /\ close (hourly_income (frac n d) rate gas nanos) t.
Proof.
  intros Hk (n & d & -> & Hd & Hy & Hn) Hr Hu E. exists n, d. split; [reflexivity|]. split; [exact Hd|].
  set (f := units_per_second gas nanos * (3600 * rate)).
  assert (Hf : 0 < f). { unfold f. clear - Hr Hu. generalize dependent (units_per_second gas nanos). intros u Hu. nra. }
  assert (Hx : 0 <= frac n d) by now apply frac_nonneg.
  change (hourly_income (frac n d) rate gas nanos) with (frac n d * f). change (hourly_income y rate gas nanos) with (y * f) in E.
  apply near_close with k; [exact Hk|nra|rewrite <- E; nra|].
  apply (near_eq k (frac n d * f) (y * f)); [reflexivity|exact E|].
  replace k with (k + 0)%nat by lia. apply near_mul; try assumption; try lra. apply near_refl.
Qed.
