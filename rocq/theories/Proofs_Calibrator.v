(** Proofs of the properties of the calibrator and of the node's options. *)
From Coq Require Import QArith Qabs Lqa ZifyBool ZifyN ZifyNat.
From Verif Require Export CalibratorFacts.
Open Scope Q_scope.

(** ** Runs of the calibrator *)

Lemma calibrate_runs c tr r : runs (calibrate c) tr r ->
  (exists e, r = Err e /\
     (tr = [CSetup (cal_elf c) (Err e)] \/
      (exists key, tr = [CSetup (cal_elf c) (Ok key); CExecute (cal_elf c) (cal_stdin c) (Err e)]) \/
      exists key report start, tr = [CSetup (cal_elf c) (Ok key); CExecute (cal_elf c) (cal_stdin c) (Ok report);
        CClock start; CProve key (cal_stdin c) (Err e)])) \/
  exists key report start now,
    tr = [CSetup (cal_elf c) (Ok key); CExecute (cal_elf c) (cal_stdin c) (Ok report); CClock start;
          CProve key (cal_stdin c) (Ok tt); CClock now] /\
    r = Ok (price_of c (match report with Some g => g | None => 0%N end) (now - start)%N).
Proof.
  unfold calibrate, ask. cbn [flow_bind runs].
  intros (a1 & t1 & -> & H). destruct a1 as [key|e]; cbn [flow_bind runs] in H.
  2: { destruct H as [-> ->]. left. exists e. auto. }
  destruct H as (a2 & t2 & -> & H). destruct a2 as [report|e]; cbn [flow_bind runs] in H.
  2: { destruct H as [-> ->]. left. exists e. split; [reflexivity|]. right; left. eauto. }
  destruct H as (start & t3 & -> & H). cbn [flow_bind runs] in H.
  destruct H as (a4 & t4 & -> & H). destruct a4 as [u|e]; cbn [flow_bind runs] in H.
  2: { destruct H as [-> ->]. left. exists e. split; [reflexivity|]. right; right. eauto 6. }
  destruct H as (now & t5 & -> & -> & ->). right. exists key, report, start, now. destruct u. auto.
Qed.

Lemma calibrated c tr r gas nanos : runs (calibrate c) tr r -> calibration (cal_elf c) (cal_stdin c) gas nanos tr ->
  r = Ok (price_of c gas nanos).
Proof.
  intros [(e & -> & [-> |[(key & ->)|(key & rep & st & ->)]])|(key & rep & st & now & -> & ->)]%calibrate_runs
    (key' & start & E); try discriminate E.
  injection E as -> -> -> _ ->. do 2 f_equal. lia.
Qed.

(** ** The price *)

Lemma C70_outcome_proof c tr r (Hrun : runs (calibrate c) tr r) :
  (forall m, r = Ok m -> exists key report start now,
     tr = [CSetup (cal_elf c) (Ok key); CExecute (cal_elf c) (cal_stdin c) (Ok report); CClock start;
           CProve key (cal_stdin c) (Ok tt); CClock now]) /\
  (forall e, r = Err e -> exists before, 
     tr = before ++ [CSetup (cal_elf c) (Err e)] \/ tr = before ++ [CExecute (cal_elf c) (cal_stdin c) (Err e)] \/
     exists key, tr = before ++ [CProve key (cal_stdin c) (Err e)]).
Proof.
  apply calibrate_runs in Hrun as [(e & -> & H)|(key & rep & st & now & -> & ->)].
  - split; [discriminate|]. intros e' [= <-]. destruct H as [-> |[(key & ->)|(key & rep & st & ->)]].
    + exists []. auto.
    + exists [CSetup (cal_elf c) (Ok key)]. auto.
    + exists [CSetup (cal_elf c) (Ok key); CExecute (cal_elf c) (cal_stdin c) (Ok rep); CClock st].
      right; right. exists key. reflexivity.
  - split; [|discriminate]. eauto.
Qed.

Lemma C70_earns_proof c tr r gas nanos c1 c2 r1 r2 m1 m2
  (Hrun : runs (calibrate c) tr r) (Hcal : calibration (cal_elf c) (cal_stdin c) gas nanos tr)
  (Hmeasured : measured gas nanos)
  (Hcost : cal_cost_per_hour c = FFin false c1 c2) (Hc : ordinary c1 c2)
  (Hrate : cal_utilization_rate c = FFin false r1 r2) (Hr : ordinary r1 r2)
  (Hmargin : cal_profit_margin c = FFin false m1 m2) (Hm : (0 < m2)%N /\ (m1 <= 10 ^ 12 * m2)%N) :
  exists m p q u v, r = Ok m /\
    pgu_price m = FFin false p q /\ (0 < q)%N /\
    close (hourly_income (frac p q) (frac r1 r2) gas nanos) (frac c1 c2 * (1 + frac m1 m2)) /\
    pgus_per_second m = FFin false u v /\ (0 < v)%N /\ close (frac u v) (units_per_second gas nanos).
Proof.
  pose proof (calibrated _ _ _ _ _ Hrun Hcal) as ->.
  destruct (ordinary_pos _ _ Hc) as [_ Pc]. destruct (ordinary_pos _ _ Hr) as [Pr1 Pr]. destruct Hm as [Pm Um].
  destruct (price_near c gas nanos 0 (frac c1 c2) 0 (frac r1 r2) (frac m1 m2)) as (Au & Ap & Bp & Bu); try assumption; try lia.
  - rewrite Hcost. now apply approx_exact.
  - now apply ordinary_between.
  - rewrite Hrate. now apply approx_exact.
  - now apply ordinary_between.
  - rewrite Hmargin. apply approx_weaken with 0%nat; [lia|]. now apply approx_exact.
  - rewrite frac_eq. apply div_le_cross; [now apply NQ_pos|]. rewrite <- NQ_mul. apply NQ_le.
    transitivity (10 ^ 12 * m2)%N; [exact Um|]. apply N.mul_le_mono_r. vm_compute. discriminate.
  - destruct (close_income 15 _ _ (frac r1 r2) gas nanos _ ltac:(lia) Ap (frac_pos _ _ Pr1 Pr) (between_pos _ _ Bu)
      (wanted_income _ _ _ _ _ (frac_pos _ _ Pr1 Pr) (between_pos _ _ Bu))) as (p & q & E1 & Hq & Hp).
    destruct (close_value 6 _ _ ltac:(lia) Au) as (u & v & E2 & Hv & Hu).
    exists (price_of c gas nanos), p, q, u, v. auto 10.
Qed.

(** A positive float with a value near a positive number is not zero. *)
Lemma approx_nonzero k x y : 0 < y -> approx k x y -> exists n d, x = FFin false n d /\ n <> 0%N /\ (0 < d)%N.
Proof.
  intros Py (n & d & -> & Hd & _ & Hn). exists n, d. split; [reflexivity|]. split; [|exact Hd]. intros ->.
  destruct Hn as [_ Hn]. rewrite frac_0, Qmult_0_r in Hn. lra.
Qed.

Lemma C70_no_gas_proof c key start nanos r c1 c2 r1 r2 m1 m2
  (Hrun : runs (calibrate c) [CSetup (cal_elf c) (Ok key); CExecute (cal_elf c) (cal_stdin c) (Ok None); CClock start;
                              CProve key (cal_stdin c) (Ok tt); CClock (start + nanos)%N] r)
  (Hn0 : (0 < nanos)%N) (Hn : (nanos < 2 ^ 64 * 10 ^ 9)%N)
  (Hcost : cal_cost_per_hour c = FFin false c1 c2) (Hc : ordinary c1 c2)
  (Hrate : cal_utilization_rate c = FFin false r1 r2) (Hr : ordinary r1 r2)
  (Hmargin : cal_profit_margin c = FFin false m1 m2) (Hm : (0 < m2)%N /\ (m1 <= 10 ^ 12 * m2)%N) :
  r = Ok (Metrics (FFin false 0 1) (FInf false)).
Proof.
  apply calibrate_runs in Hrun as [(e & _ & [E|[(key' & E)|(key' & rep & st & E)]])|(key' & rep & st & now & E & ->)]; try discriminate E.
  injection E. intros E1 _ E2 E3 _. rewrite <- E1, <- E2, <- E3. clear E E1 E2 E3. replace (start + nanos - start)%N with nanos by lia. unfold price_of.
  destruct (approx_secs nanos Hn0 Hn) as [Bs As]. destruct (approx_nonzero _ _ _ (between_pos _ _ Bs) As) as (n & d & -> & Hne & Hd).
  destruct (ordinary_pos _ _ Hc) as [Pc _].
  assert (Hz : f64_div (f64_of 0) (FFin false n d) = FFin false 0 1).
  { change (f64_of 0) with (FFin false 0 1). cbn [f64_div]. destruct (N.eqb_spec n 0) as [E|_]; [now rewrite E in Hne|reflexivity]. }
  rewrite Hz, Hcost, Hrate, Hmargin. change (f64_mul (FFin false 0 1) (f64_of 3600)) with (FFin false 0 1).
  change (f64_mul (FFin false 0 1) (FFin false r1 r2)) with (FFin false 0 1). cbn [f64_div xorb].
  destruct (N.eqb_spec c1 0) as [->|_]; [lia|]. destruct Hm as [Pm Um].
  assert (Bm : frac m1 m2 <= number (2 ^ 40)).
  { rewrite frac_eq. apply div_le_cross; [now apply NQ_pos|]. rewrite <- NQ_mul. apply NQ_le.
    transitivity (10 ^ 12 * m2)%N; [exact Um|]. apply N.mul_le_mono_r. vm_compute. discriminate. }
  assert (Hm0 : 0 <= frac m1 m2) by now apply frac_nonneg.
  assert (B1m : between 41 (number 1 + frac m1 m2)).
  { unfold between. change (number (2 ^ 40)) with 1099511627776 in Bm. change (number (2 ^ 41)) with 2199023255552.
    change (number 1) with 1. split; lra. }
  assert (A1m : approx 2 (f64_add (f64_of 1) (FFin false m1 m2)) (number 1 + frac m1 m2)).
  { apply approx_add; [lia|now apply between_mono with 41%N; [lia|]| |].
    - apply approx_of. reflexivity.
    - apply approx_weaken with 0%nat; [lia|]. now apply approx_exact. }
  destruct (approx_nonzero _ _ _ (between_pos _ _ B1m) A1m) as (n' & d' & -> & Hne' & _).
  change (0 =? 0)%N with true. cbv iota. cbn [f64_mul xorb]. destruct (N.eqb_spec n' 0) as [E|_]; [now rewrite E in Hne'|reflexivity].
Qed.

Lemma round_half_up_err n d : (0 < d)%N -> Qabs (number (round_half_up n d) - frac n d) <= 1 # 2.
Proof.
  intros Hd. unfold round_half_up. pose proof (N.div_mod (2 * n + d) (2 * d) ltac:(lia)) as E.
  pose proof (N.mod_lt (2 * n + d) (2 * d) ltac:(lia)) as L. set (k := ((2 * n + d) / (2 * d))%N) in *.
  assert (N1 : (2 * d * k <= 2 * n + d)%N) by lia. assert (N2 : (2 * n <= 2 * d * k + d)%N) by lia.
  apply NQ_le in N1, N2. rewrite !NQ_add, !NQ_mul in N1, N2. apply NQ_pos in Hd. rewrite frac_eq.
  set (x := number n / number d). assert (En : number n == x * number d) by (unfold x; field; lra).
  rewrite En in N1, N2. clearbody x k. clear En E L. change (number 2) with 2 in *.
  assert (M1 : 2 * number k <= 2 * x + 1) by (apply (Qmult_le_r _ _ _ Hd); lra).
  assert (M2 : 2 * x <= 2 * number k + 1) by (apply (Qmult_le_r _ _ _ Hd); lra).
  apply Qabs_Qle_condition. split; lra.
Qed.

(** ** The printed price *)

Lemma fold_digits : forall s acc, Forall (fun c => 48 <= c <= 57)%N s ->
  fold_left (fun acc d => 10 * acc + d)%N (map (fun c => c - 48)%N s) acc =
  fold_left (fun acc c => acc * 10 + (c - 48))%N s acc.
Proof.
  induction s as [|c s IH]; intros acc H; [reflexivity|]. inversion H; subst. cbn [map fold_left]. rewrite IH by assumption.
  f_equal. lia.
Qed.

Lemma decimal_digits n : (n < 10 ^ 320)%N -> exists ds, digits_text n = text_of ds /\ all_digits ds /\ ds <> [] /\
  value_of ds = n.
Proof.
  intros Hn. destruct (decimal_aux_spec 320 n) as (H1 & H2 & H3); [exact Hn|easy|]. fold (digits_text n) in *.
  exists (map (fun c => c - 48)%N (digits_text n)).
  assert (E : text_of (map (fun c => c - 48)%N (digits_text n)) = digits_text n).
  { unfold text_of. rewrite map_map. rewrite <- (map_id (digits_text n)) at 2. apply map_ext_Forall.
    eapply Forall_impl; [exact H1|]. cbn. intros c Hc. lia. }
  split; [now symmetry|]. split; [|split].
  - unfold all_digits. apply Forall_map. eapply Forall_impl; [exact H1|]. cbn. intros c Hc. lia.
  - intros E0. apply H2. now apply map_eq_nil in E0.
  - unfold value_of. now rewrite fold_digits.
Qed.

Lemma two_decimals_literal n d : (0 < d)%N -> (n <= 10 ^ 300 * d)%N ->
  exists h, literal (two_decimals (FFin false n d)) h 100 /\ Qabs (frac h 100 - frac n d) <= 1 # 200.
Proof.
  intros Hd Hn. cbn [two_decimals]. set (h := nearest_even (100 * n) d). exists h.
  destruct (nearest_even_err (100 * n) d Hd) as [N1 N2]. fold h in N1, N2. split.
  - assert (Hh : (h / 100 < 10 ^ 320)%N).
    { apply N.div_lt_upper_bound; [lia|]. assert (K : (d * h <= d * (101 * 10 ^ 300))%N) by nia.
      apply N.mul_le_mono_pos_l in K; [|exact Hd]. apply N.le_lt_trans with (1 := K). reflexivity. }
    destruct (decimal_digits _ Hh) as (ds & -> & Hds & Hne & Hv). cbn [app].
    set (fracs := [h mod 100 / 10; h mod 10]%N).
    assert (E : h = (value_of (ds ++ fracs) * 10 ^ Z.to_N 0)%N).
    { unfold value_of in *. rewrite fold_left_app. rewrite Hv. unfold fracs. cbn [fold_left]. change (10 ^ Z.to_N 0)%N with 1%N.
      clear. pose proof (N.div_mod h 100 ltac:(lia)). pose proof (N.mod_lt h 100 ltac:(lia)).
      pose proof (N.div_mod (h mod 100) 10 ltac:(lia)).
      assert (h mod 100 mod 10 = h mod 10)%N.
      { pose proof (N.div_mod h 10 ltac:(lia)). pose proof (N.mod_lt h 10 ltac:(lia)). pose proof (N.mod_lt (h mod 100) 10 ltac:(lia)). lia. }
      lia. }
    assert (L : literal ([] ++ text_of ds ++ [46]%N ++ text_of fracs ++ []) (value_of (ds ++ fracs) * 10 ^ Z.to_N 0)
                  (10 ^ N.of_nat (length fracs) * 10 ^ Z.to_N (- 0))); [|rewrite <- E in L; exact L].
    apply literal_intro; auto.
    + unfold fracs. repeat constructor.
      * apply N.div_lt_upper_bound; [lia|]. apply N.mod_lt. lia.
      * apply N.mod_lt. lia.
    + intros E0. destruct ds; [easy|discriminate].
    + constructor.
  - apply NQ_le in N1, N2. rewrite !NQ_add, !NQ_mul in N1, N2. apply NQ_pos in Hd. clear Hn. rewrite !frac_eq. 
    set (x := number n / number d). assert (En : number n == x * number d) by (unfold x; field; lra).
    rewrite En in N1, N2. clearbody x. clear En. clearbody h.
    change (number 2) with 2 in *. change (number 100) with 100 in *.
    assert (M1 : 2 * number h <= 2 * (100 * x) + 1) by (apply (Qmult_le_r _ _ _ Hd); lra).
    assert (M2 : 2 * (100 * x) <= 2 * number h + 1) by (apply (Qmult_le_r _ _ _ Hd); lra).
    setoid_replace (number h / 100) with ((1 # 100) * number h) by (unfold Qdiv; apply Qmult_comm).
    apply Qabs_Qle_condition. split; lra.
Qed.

Lemma command_runs elf stdin args tr r cost rate margin price :
  parse_f64 (arg_usd_cost_per_hour args) = Some cost -> parse_f64 (arg_utilization_rate args) = Some rate ->
  parse_f64 (arg_profit_margin args) = Some margin -> parse_f64 (arg_prove_price args) = Some price ->
  runs (calibrate_command elf stdin args) tr r ->
  exists tr1 r1, runs (calibrate (Calibrator elf stdin cost rate margin)) tr1 r1 /\
    ((exists e, r1 = Err e /\ tr = tr1 /\ r = Err e) \/
     (exists m, r1 = Ok m /\ r = Ok tt /\
       tr = tr1 ++ [CResults (f64_round (pgus_per_second m))
                     (two_decimals (f64_mul (f64_mul (pgu_price m) price) (f64_of (10 ^ 9)))) tt])).
Proof.
  unfold calibrate_command. intros -> -> -> -> H. apply runs_bind in H as (tr1 & tr2 & r1 & -> & H1 & H2).
  exists tr1, r1. split; [exact H1|]. destruct r1 as [m|e].
  - right. exists m. split; [reflexivity|]. cbn [flow_bind ask runs] in H2. destruct H2 as ([] & rest & -> & -> & ->). auto.
  - left. exists e. destruct H2 as [-> ->]. rewrite app_nil_r. auto.
Qed.

Lemma approx_text t a b : literal t a b -> ordinary a b ->
  exists x, parse_f64 t = Some x /\ approx 1 x (frac a b) /\ between 40 (frac a b).
Proof.
  intros Hl Ho. exists (to_f64 false a b). split; [now apply parse_literal|]. pose proof (ordinary_between _ _ Ho) as B.
  split; [|exact B]. apply approx_of_frac; [apply Ho|]. apply between_mono with 40%N; [lia|exact B].
Qed.

Lemma approx_bound k x y p : (k <= 40)%nat -> approx k x y -> between p y ->
  exists n d, x = FFin false n d /\ (0 < d)%N /\ (n <= 2 * 2 ^ p * d)%N.
Proof.
  intros Hk (n & d & -> & Hd & Hy & Hn) [_ B]. exists n, d. split; [reflexivity|]. split; [exact Hd|].
  destruct (near_bounds k _ _ Hk (frac_nonneg _ _ Hd) Hy Hn) as [U _]. apply NQ_pos in Hd.
  apply NQ_le. rewrite !NQ_mul. change (number 2) with 2. rewrite frac_eq in U. apply div_le_cross; [exact Hd|]. lra.
Qed.

Lemma C71_printed_proof elf stdin args cal thr text gas nanos c1 c2 r1 r2 m1 m2 p1 p2
  (Hcost : literal (arg_usd_cost_per_hour args) c1 c2) (Hc : ordinary c1 c2)
  (Hrate : literal (arg_utilization_rate args) r1 r2) (Hr : ordinary r1 r2)
  (Hmargin : literal (arg_profit_margin args) m1 m2) (Hm : m1 = 0%N \/ ordinary m1 m2)
  (Hprice : literal (arg_prove_price args) p1 p2) (Hp : ordinary p1 p2)
  (Hcal : calibration elf stdin gas nanos cal) (Hmeasured : measured gas nanos)
  (Hrun : runs (calibrate_command elf stdin args) (cal ++ [CResults thr text tt]) (Ok tt)) :
  (exists h x, literal text h 100 /\ Qabs (frac h 100 - x) <= 1 # 200 /\
    close (hourly_income (x / number (10 ^ 9)) (frac r1 r2) gas nanos)
          (frac p1 p2 * (frac c1 c2 * (1 + frac m1 m2)))) /\
  (exists k x, thr = FFin false k 1 /\ Qabs (number k - x) <= 1 # 2 /\ close x (units_per_second gas nanos)).
Proof.
  destruct (approx_text _ _ _ Hcost Hc) as (cost & Pc & Ac & Bc). destruct (approx_text _ _ _ Hrate Hr) as (rate & Pr & Ar & Br).
  destruct (approx_text _ _ _ Hprice Hp) as (price & Pp & Ap & Bp).
  assert (Hmg : exists margin, parse_f64 (arg_profit_margin args) = Some margin /\ approx 1 margin (frac m1 m2) /\
            frac m1 m2 <= number (2 ^ 40)).
  { destruct Hm as [-> |Hm].
    - exists (to_f64 false 0 m2). split; [now apply parse_literal|]. split.
      + apply approx_eq with 0; [now rewrite frac_0|]. apply approx_zero.
      + rewrite frac_0. apply NQ_nonneg.
    - destruct (approx_text _ _ _ Hmargin Hm) as (margin & Pm & Am & [_ Bm]). eauto. }
  destruct Hmg as (margin & Pm & Am & Um).
  destruct (command_runs _ _ _ _ _ _ _ _ _ Pc Pr Pm Pp Hrun) as (tr1 & r' & Hrun1 & [(e & _ & _ & E)|(m & -> & _ & Etr)]); [discriminate E|].
  apply app_inj_tail in Etr as [<- [= -> ->]].
  pose proof (calibrated _ _ _ _ _ Hrun1 Hcal) as [= ->].
  destruct (price_near (Calibrator elf stdin cost rate margin) gas nanos 1 (frac c1 c2) 1 (frac r1 r2) (frac m1 m2))
    as (Au & Aw & Bw & Bu); try assumption; try lia.
  split.
  2: { destruct (close_value 6 _ _ ltac:(lia) Au) as (u & v & -> & Hv & Hu). exists (round_half_up u v), (frac u v).
    split; [reflexivity|]. split; [now apply round_half_up_err|exact Hu]. }
  clear Au. set (w := wanted (frac c1 c2) (frac m1 m2) (frac r1 r2) gas nanos) in *.
  set (x0 := pgu_price _) in *. clearbody x0.
  assert (B9 : between 30 (number (10 ^ 9))) by (apply between_N; vm_compute; discriminate).
  assert (B1 : between 361 (w * frac p1 p2)) by (apply (between_mul 321 40); assumption).
  assert (B2 : between 391 (w * frac p1 p2 * number (10 ^ 9))) by (apply (between_mul 361 30); assumption).
  assert (A1 : approx 17 (f64_mul x0 price) (w * frac p1 p2)).
  { apply (approx_mul 15 1); [lia|now apply between_mono with 361%N; [lia|]|exact Aw|exact Ap]. }
  assert (A2 : approx 19 (f64_mul (f64_mul x0 price) (f64_of (10 ^ 9))) (w * frac p1 p2 * number (10 ^ 9))).
  { apply (approx_mul 17 1); [lia|now apply between_mono with 391%N; [lia|]|exact A1|]. apply approx_of. reflexivity. }
  destruct (approx_bound 19 _ _ 391 ltac:(lia) A2 B2) as (n & d & E & Hd & Hb).
  destruct A2 as (n' & d' & E' & _ & Hy & Hn). rewrite E in E'. injection E' as <- <-. rewrite E.
  destruct (two_decimals_literal n d Hd) as (h & Hl & Hq).
  { apply N.le_trans with (1 := Hb). apply N.mul_le_mono_r. vm_compute. discriminate. }
  exists h, (frac n d). split; [exact Hl|]. split; [exact Hq|].
  assert (Pr0 : 0 < frac r1 r2) by apply (between_pos _ _ Br). assert (Pu : 0 < units_per_second gas nanos) by apply (between_pos _ _ Bu).
  set (u := units_per_second gas nanos) in *.
  assert (Hf : 0 < u * (3600 * frac r1 r2)). { clear - Pr0 Pu. generalize dependent (frac r1 r2). intros. clearbody u. nra. }
  assert (P9 : 0 < number (10 ^ 9)) by reflexivity.
  assert (Hin : hourly_income w (frac r1 r2) gas nanos == frac c1 c2 * (1 + frac m1 m2)) by now apply wanted_income.
  unfold hourly_income in *. fold u in Hin |- *.
  assert (Hfr : 0 <= frac n d) by now apply frac_nonneg.
  set (f := u * (3600 * frac r1 r2)) in *. clearbody f.
  assert (Ht : frac p1 p2 * (frac c1 c2 * (1 + frac m1 m2)) == w * frac p1 p2 * number (10 ^ 9) * (f / number (10 ^ 9))).
  { rewrite <- Hin. field. lra. }
  assert (Hg : 0 <= f / number (10 ^ 9)) by (apply le_div_cross; lra).
  apply near_close with 19%nat; [lia| | |].
  - setoid_replace (frac n d / number (10 ^ 9) * f) with (frac n d * (f / number (10 ^ 9))) by (field; lra). now apply Qmult_le_0_compat.
  - rewrite Ht. now apply Qmult_le_0_compat.
  - apply (near_eq 19 (frac n d * (f / number (10 ^ 9))) (w * frac p1 p2 * number (10 ^ 9) * (f / number (10 ^ 9)))).
    + field. lra.
    + now symmetry.
    + change 19%nat with (19 + 0)%nat. apply near_mul; try assumption. apply near_refl.
Qed.

(** ** The bid option *)

Lemma near_half_step : forall x y : Q, 0 <= x -> 0 <= y -> near 1 x y ->
  Qabs (x - y) <= (1 # 4503599627370495) * x /\ Qabs (x - y) <= (1 # 4503599627370495) * y.
Proof.
  unfold near. cbn [steps]. intros x y Hx Hy. setoid_replace step with (4503599627370496 # 4503599627370495) by reflexivity.
  intros [A B]. split; apply Qabs_Qle_condition; split; lra.
Qed.

Lemma u256_near a b : (0 < b)%N -> (a < 2 ^ 50 * b)%N ->
  exists w, u256_of_f64 (to_f64 false a b) = Some w /\
    Qabs (number w - frac a b) <= (1 # 2) + frac a b / number (2 ^ 50).
Proof.
  intros Hb Hlt. destruct (N.eq_dec a 0) as [->|Ha0].
  { exists 0%N. split; [reflexivity|]. rewrite frac_0. vm_compute. discriminate. }
  assert (Ha : (0 < a)%N) by lia. pose proof (proj1 (NQ_pos _) Hb) as Qb. pose proof (proj1 (NQ_pos _) Ha) as Qa.
  pose proof (frac_pos a b Ha Hb) as Py.
  assert (Uy : frac a b <= number (2 ^ 50)).
  { rewrite frac_eq. apply div_le_cross; [exact Qb|]. rewrite <- NQ_mul. apply NQ_le. lia. }
  assert (E50 : frac a b / number (2 ^ 50) == (1 # 1125899906842624) * frac a b).
  { unfold Qdiv. rewrite Qmult_comm. reflexivity. }
  enough (exists w, u256_of_f64 (to_f64 false a b) = Some w /\
      Qabs (number w - frac a b) <= (1 # 2) + (1 # 1125899906842624) * frac a b) as (w & Hw1 & Hw2).
  { exists w. split; [exact Hw1|]. now rewrite E50. }
  clear E50.
  destruct (N.le_gt_cases (2 ^ 980 * a) b) as [Htiny|Hbig].
  - (* a tiny number becomes zero *)
    rewrite to_f64_chosen by exact Ha. destruct (chosen a b) as [n d] eqn:E.
    destruct (chosen_le a b n d Ha Hb E) as [Hd Hle].
    assert (Hmany : forall c, (c <= 2 ^ 980)%N -> (c * a <= b)%N).
    { intros c Hc. apply N.le_trans with (2 := Htiny). now apply N.mul_le_mono_r. }
    assert (Hsmall : (2 * n < d)%N).
    { assert (K : (2 ^ 1000 * b * (2 * n) < 2 ^ 1000 * b * d)%N).
      { apply N.le_lt_trans with (2 * (2 * (a * d) * 2 ^ 1000 + b * d))%N; [lia|].
        assert (T2 : (8 * a <= b)%N) by (apply Hmany; vm_compute; discriminate).
        assert (B4 : (4 < 2 ^ 1000)%N) by reflexivity.
        generalize dependent (2 ^ 1000)%N. intros X _ B4. clear - T2 B4 Hd Hb.
        assert (T3 : (8 * a * (d * X) <= b * (d * X))%N) by now apply N.mul_le_mono_r.
        assert (T4 : (4 * (b * d) < X * (b * d))%N) by (apply N.mul_lt_mono_pos_r; lia). lia. }
      apply N.mul_lt_mono_pos_l in K; [exact K|]. pose proof (pow2_pos 1000). apply N.mul_pos_pos; assumption. }
    assert (Hf : (n < d * 2 ^ 1024)%N).
    { apply N.lt_le_trans with d; [lia|]. rewrite <- (N.mul_1_r d) at 1. apply N.mul_le_mono_l. vm_compute. discriminate. }
    rewrite (proj2 (N.leb_gt _ _) Hf). cbn [u256_of_f64 andb].
    assert (Hf2 : (n < d * two256)%N).
    { apply N.lt_le_trans with d; [lia|]. rewrite <- (N.mul_1_r d) at 1. apply N.mul_le_mono_l. vm_compute. discriminate. }
    rewrite (proj2 (N.leb_gt _ _) Hf2), (proj2 (N.ltb_lt _ _) Hsmall). exists 0%N. split; [reflexivity|].
    assert (Hh : frac a b <= 1 # 2).
    { rewrite frac_eq. apply div_le_cross; [exact Qb|].
      assert (T : (2 * a <= b)%N) by (apply Hmany; vm_compute; discriminate).
      apply NQ_le in T. rewrite NQ_mul in T. change (number 2) with 2 in T. lra. }
    change (number 0) with 0. apply Qabs_Qle_condition. split; lra.
  - assert (By : between 980 (frac a b)).
    { split.
      - apply N.lt_le_incl, NQ_le in Hbig. rewrite NQ_mul in Hbig. rewrite frac_eq.
        set (T := number (2 ^ 980)) in *. clearbody T.
        setoid_replace (T * (NQ a / NQ b)) with ((T * NQ a) / NQ b) by (field; lra). apply le_div_cross; [exact Qb|]. lra.
      - apply Qle_trans with (1 := Uy). apply (proj1 (NQ_le _ _)). apply N.pow_le_mono_r; lia. }
    destruct (round_near false a b Ha Hb ltac:(now apply between_mono with 980%N; [lia|])) as (n & d & E & Hd & Hn).
    rewrite E. clear E. pose proof (proj1 (NQ_pos _) Hd) as Qd.
    assert (Hx0 : 0 <= frac n d) by now apply frac_nonneg.
    destruct (near_half_step _ _ Hx0 (Qlt_le_weak _ _ Py) Hn) as [X1 X2]. apply Qabs_Qle_condition in X1, X2.
    assert (Ux : frac n d <= number (2 ^ 51)).
    { change (number (2 ^ 51)) with (2 * number (2 ^ 50)). lra. }
    cbn [u256_of_f64 andb].
    assert (Hf2 : (n < d * two256)%N).
    { apply N.le_lt_trans with (2 ^ 51 * d)%N.
      - apply NQ_le. rewrite NQ_mul. rewrite frac_eq in Ux. now apply div_le_cross in Ux.
      - rewrite N.mul_comm. apply N.mul_lt_mono_pos_l; [exact Hd|reflexivity]. }
    rewrite (proj2 (N.leb_gt _ _) Hf2).
    destruct (N.ltb_spec (2 * n) d) as [Hs|Hs].
    + exists 0%N. split; [reflexivity|].
      assert (Hh : frac n d <= 1 # 2).
      { rewrite frac_eq. apply div_le_cross; [exact Qd|]. apply N.lt_le_incl, NQ_le in Hs. rewrite NQ_mul in Hs.
        change (number 2) with 2 in Hs. lra. }
      change (number 0) with 0. apply Qabs_Qle_condition. split; lra.
    + assert (Hh : 1 # 2 <= frac n d).
      { rewrite frac_eq. apply le_div_cross; [exact Qd|]. apply NQ_le in Hs. rewrite NQ_mul in Hs.
        change (number 2) with 2 in Hs. lra. }
      change (to_f64 false 1 2) with (FFin false 4503599627370496 9007199254740992). cbn [f64_add Bool.eqb].
      assert (Ef : frac (n * 9007199254740992 + 4503599627370496 * d) (d * 9007199254740992) == frac n d + (1 # 2)).
      { rewrite frac_add by lia. apply Qplus_inj_l. reflexivity. }
      assert (Bs : between 990 (frac (n * 9007199254740992 + 4503599627370496 * d) (d * 9007199254740992))).
      { apply between_eq with (frac n d + (1 # 2)); [now symmetry|]. apply between_mono with 52%N; [lia|].
        change (number (2 ^ 51)) with 2251799813685248 in Ux. unfold between. change (number (2 ^ 52)) with 4503599627370496. split; lra. }
      assert (Hp1 : (0 < n * 9007199254740992 + 4503599627370496 * d)%N) by lia. assert (Hp2 : (0 < d * 9007199254740992)%N) by lia.
      destruct (round_near false _ _ Hp1 Hp2 Bs) as (n' & d' & -> & Hd' & Hn').
      apply (near_eq 1 _ _ (frac n' d') (frac n d + (1 # 2)) ltac:(reflexivity) Ef) in Hn'.
      assert (Hx0' : 0 <= frac n' d') by now apply frac_nonneg.
      assert (Hs0 : 0 <= frac n d + (1 # 2)) by lra.
      destruct (near_half_step _ _ Hx0' Hs0 Hn') as [_ Z2]. apply Qabs_Qle_condition in Z2.
      pose proof (N.div_mod n' d' ltac:(lia)) as Ed. pose proof (N.mod_lt n' d' ltac:(lia)) as Ld. cbv zeta.
      set (w := (n' / d')%N) in *. pose proof (proj1 (NQ_pos _) Hd') as Qd'.
      assert (W1 : number w <= frac n' d').
      { rewrite frac_eq. apply le_div_cross; [exact Qd'|]. rewrite <- NQ_mul. apply NQ_le. lia. }
      assert (W2 : frac n' d' <= number w + 1).
      { rewrite frac_eq. apply div_le_cross; [exact Qd'|]. change 1 with (number 1). rewrite <- NQ_add, <- NQ_mul. apply NQ_le. lia. }
      assert (Hw : (w < two256)%N).
      { apply NQ_lt. apply Qle_lt_trans with (1 := W1).
        change (number (2 ^ 51)) with 2251799813685248 in Ux.
        apply Qle_lt_trans with 4503599627370496; [lra|]. reflexivity. }
      rewrite (proj2 (N.ltb_lt _ _) Hw). exists w. split; [reflexivity|].
      apply Qabs_Qle_condition. split; lra.
Qed.

Lemma C72_options_proof address sign domain prover bid throughput a b c d
  (Hbid : literal bid a b) (Hmax : (a < 2 ^ 50 * b)%N) (Hthr : literal throughput c d) (Hc : ordinary c d) :
  exists w u v, node_of_options address sign domain prover bid throughput = Some (Node address sign w (FFin false u v) prover domain) /\
    Qabs (number w - frac a b) <= (1 # 2) + frac a b / number (2 ^ 50) /\
    (0 < v)%N /\ close (frac u v) (frac c d).
Proof.
  destruct (u256_near a b (literal_den _ _ _ Hbid) Hmax) as (w & E & Hw).
  destruct (approx_text _ _ _ Hthr Hc) as (x & Ex & Ax & _). destruct (close_value 1 _ _ ltac:(lia) Ax) as (u & v & -> & Hv & Hu).
  exists w, u, v. unfold node_of_options. rewrite (parse_literal _ _ _ Hbid), Ex, E. auto.
Qed.

(** ** Cases *)

(** Options "0.80", "0.5", "0.1", "0.50", and ten million units of gas in ten seconds. *)
Definition toy_args : calibrate_args :=
  CalibrateArgs [48; 46; 56; 48]%N [48; 46; 53]%N [48; 46; 49]%N [48; 46; 53; 48]%N.
Definition toy_calibration : list cal_event :=
  [CSetup [1]%N (Ok [2]%N); CExecute [1]%N [3]%N (Ok (Some 10000000%N)); CClock 5; CProve [2]%N [3]%N (Ok tt); CClock 10000000005].
(** "0.24" *)
Definition toy_text : list N := [48; 46; 50; 52]%N.

Lemma literal_plain ints fracs : all_digits ints -> all_digits fracs -> ints ++ fracs <> [] ->
  literal (text_of ints ++ [46]%N ++ text_of fracs) (value_of (ints ++ fracs)) (10 ^ N.of_nat (length fracs)).
Proof.
  intros H1 H2 H3. pose proof (literal_intro [] ints [46]%N fracs [] 0) as H.
  change (Z.to_N 0) with 0%N in H. change (Z.to_N (- 0)) with 0%N in H.
  rewrite N.pow_0_r, !N.mul_1_r, app_nil_r in H. apply H; auto. constructor.
Qed.

Lemma toy_literals :
  literal (arg_usd_cost_per_hour toy_args) 80 100 /\ literal (arg_utilization_rate toy_args) 5 10 /\
  literal (arg_profit_margin toy_args) 1 10 /\ literal (arg_prove_price toy_args) 50 100 /\ literal toy_text 24 100.
Proof.
  repeat match goal with |- _ /\ _ => split end.
  - apply (literal_plain [0]%N [8; 0]%N); [repeat constructor..|discriminate].
  - apply (literal_plain [0]%N [5]%N); [repeat constructor..|discriminate].
  - apply (literal_plain [0]%N [1]%N); [repeat constructor..|discriminate].
  - apply (literal_plain [0]%N [5; 0]%N); [repeat constructor..|discriminate].
  - apply (literal_plain [0]%N [2; 4]%N); [repeat constructor..|discriminate].
Qed.

Lemma toy_ordinary : ordinary 80 100 /\ ordinary 5 10 /\ ordinary 1 10 /\ ordinary 50 100 /\ measured 10000000 10000000000.
Proof. unfold ordinary, measured. repeat match goal with |- _ /\ _ => split end; first [reflexivity|vm_compute; discriminate]. Qed.

Lemma toy_calibration_ok : calibration [1]%N [3]%N 10000000 10000000000 toy_calibration.
Proof. exists [2]%N, 5%N. reflexivity. Qed.

Lemma toy_run : runs (calibrate_command [1]%N [3]%N toy_args)
  (toy_calibration ++ [CResults (FFin false 1000000 1) toy_text tt]) (Ok tt).
Proof.
  cbv -[price_of two_decimals f64_mul f64_of N.sub f64_round toy_text].
  eexists (Ok [2]%N), _. split; [reflexivity|]. eexists (Ok (Some 10000000%N)), _. split; [reflexivity|].
  eexists 5%N, _. split; [reflexivity|]. eexists (Ok tt), _. split; [reflexivity|]. eexists 10000000005%N, _. split; [reflexivity|].
  eexists tt, _. split; [|split; reflexivity]. vm_compute. reflexivity.
Qed.

Lemma C71_refuted_proof : exists elf stdin args cal thr text gas nanos c1 c2 r1 r2 m1 m2 p1 p2 h,
  literal (arg_usd_cost_per_hour args) c1 c2 /\ literal (arg_utilization_rate args) r1 r2 /\
  literal (arg_profit_margin args) m1 m2 /\ literal (arg_prove_price args) p1 p2 /\
  calibration elf stdin gas nanos cal /\ measured gas nanos /\
  runs (calibrate_command elf stdin args) (cal ++ [CResults thr text tt]) (Ok tt) /\ literal text h 100 /\
  hourly_income (frac h 100 / number (10 ^ 9) * frac p1 p2) (frac r1 r2) gas nanos < (1 # 2) * frac c1 c2.
Proof.
  exists [1]%N, [3]%N, toy_args, toy_calibration, (FFin false 1000000 1), toy_text, 10000000%N, 10000000000%N.
  exists 80%N, 100%N, 5%N, 10%N, 1%N, 10%N, 50%N, 100%N, 24%N.
  destruct toy_literals as (L1 & L2 & L3 & L4 & L5). destruct toy_ordinary as (_ & _ & _ & _ & M).
  repeat match goal with |- _ /\ _ => split end; try assumption.
  - exact toy_calibration_ok.
  - exact toy_run.
  - vm_compute. reflexivity.
Qed.

Lemma C72_refuted_proof : exists address sign domain prover bid throughput a b n,
  literal bid a b /\ node_of_options address sign domain prover bid throughput = Some n /\
  number (10 ^ 8) * (number (nd_bid n) * number (10 ^ 9)) < frac a b * number (10 ^ 18).
Proof.
  exists 1%N, (fun _ => []), 2%N, 3%N, [49; 46]%N, [49; 46]%N, 1%N, 1%N. eexists. split; [|split].
  - apply (literal_plain [1]%N []%N); [repeat constructor..|discriminate].
  - vm_compute. reflexivity.
  - vm_compute. reflexivity.
Qed.

Lemma C70_example_proof :
  let c := Calibrator [1]%N [3]%N (FFin false 3 4) (FFin false 1 2) (FFin false 1 8) in
  calibration (cal_elf c) (cal_stdin c) 10000000 10000000000 toy_calibration /\ measured 10000000 10000000000 /\
  ordinary 3 4 /\ ordinary 1 2 /\ (1 <= 10 ^ 12 * 8)%N /\
  exists m, runs (calibrate c) toy_calibration (Ok m) /\ f64_round (pgus_per_second m) = FFin false 1000000 1.
Proof.
  cbv zeta. split; [exact toy_calibration_ok|]. split; [apply toy_ordinary|].
  unfold ordinary. repeat match goal with |- _ /\ _ => split end; try reflexivity; try (vm_compute; discriminate).
  eexists. split.
  - cbv -[price_of N.sub].
    eexists (Ok [2]%N), _. split; [reflexivity|]. eexists (Ok (Some 10000000%N)), _. split; [reflexivity|].
    eexists 5%N, _. split; [reflexivity|]. eexists (Ok tt), _. split; [reflexivity|]. eexists 10000000005%N, _. split; [reflexivity|].
    split; reflexivity.
  - vm_compute. reflexivity.
Qed.

Lemma C72_example_proof :
  literal [50; 46; 53]%N 25 10 /\ (25 < 2 ^ 50 * 10)%N /\ literal [49; 48; 48; 46]%N 100 1 /\ ordinary 100 1 /\
  option_map nd_bid (node_of_options 1 (fun _ => []) 2 3 [50; 46; 53]%N [49; 48; 48; 46]%N) = Some 3%N /\
  option_map nd_bid (node_of_options 1 (fun _ => []) 2 3 [48; 46; 52]%N [49; 48; 48; 46]%N) = Some 0%N /\
  node_of_options 1 (fun _ => []) 2 3 [45; 49; 46]%N [49; 48; 48; 46]%N = None.
Proof.
  unfold ordinary. repeat match goal with |- _ /\ _ => split end; try reflexivity; try (vm_compute; discriminate).
  - apply (literal_plain [2]%N [5]%N); [repeat constructor..|discriminate].
  - apply (literal_plain [1; 0; 0]%N []%N); [repeat constructor..|discriminate].
Qed.

Lemma C70_no_gas_case_proof :
  let c := Calibrator [1]%N [3]%N (FFin false 3 4) (FFin false 1 2) (FFin false 1 8) in
  runs (calibrate c) [CSetup [1]%N (Ok [2]%N); CExecute [1]%N [3]%N (Ok None); CClock 5; CProve [2]%N [3]%N (Ok tt);
                      CClock (5 + 1000000)] (Ok (Metrics (FFin false 0 1) (FInf false))).
Proof.
  cbv -[price_of N.sub N.add].
  eexists (Ok [2]%N), _. split; [reflexivity|]. eexists (Ok None), _. split; [reflexivity|].
  eexists 5%N, _. split; [reflexivity|]. eexists (Ok tt), _. split; [reflexivity|]. eexists (5 + 1000000)%N, _. split; [reflexivity|].
  split; [reflexivity|]. vm_compute. reflexivity.
Qed.
