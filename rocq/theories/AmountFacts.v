(** Facts about numbers that arrive as text. *)
From Coq Require Import ZifyBool ZifyN ZifyNat.
From Verif Require Export AmountSpec RetryFacts NodeSpec.
Open Scope N_scope.

Lemma digit_value_spec c d : digit_value c = Some d <-> digit c d.
Proof.
  unfold digit_value, digit.
  destruct ((48 <=? c) && (c <=? 57)) eqn:E1; [split; [intros [= <-]; lia|intros; f_equal; lia]|].
  destruct ((97 <=? c) && (c <=? 122)) eqn:E2; [split; [intros [= <-]; lia|intros; f_equal; lia]|].
  destruct ((65 <=? c) && (c <=? 90)) eqn:E3; [split; [intros [= <-]; lia|intros; f_equal; lia]|].
  split; [discriminate|lia].
Qed.

Lemma fold_radix_le radix ds acc : 0 < radix -> acc <= fold_left (fun a d => a * radix + d) ds acc.
Proof.
  intros Hr. revert acc. induction ds as [|d ds IH]; intros acc; cbn; [lia|].
  etransitivity; [|apply IH]. nia.
Qed.

Lemma from_str_radix_spec radix text : 0 < radix -> forall acc n,
  acc < two256 ->
  from_str_radix radix text acc = Some n <->
  exists ds, Forall2 digit (List.filter (fun c => negb (c =? 95)) text) ds /\ Forall (fun d => d < radix) ds /\
    n = fold_left (fun a d => a * radix + d) ds acc /\ n < two256.
Proof.
  intros Hr. induction text as [|c text IH]; intros acc n Hacc; cbn [from_str_radix List.filter].
  - split.
    + intros [= <-]. exists []. repeat split; [constructor|constructor|exact Hacc].
    + intros (ds & H & _ & -> & _). inversion H; subst. reflexivity.
  - destruct (c =? 95) eqn:Ec; cbn [negb]; [exact (IH acc n Hacc)|].
    destruct (digit_value c) as [d|] eqn:Ed.
    + apply digit_value_spec in Ed. destruct (radix <=? d) eqn:El.
      { split; [discriminate|]. intros (ds & H & Hd & _). inversion H as [|? d' ? ds' Hc H']; subst.
        inversion Hd; subst. apply digit_value_spec in Hc, Ed. assert (d = d') by congruence. lia. }
      cbv zeta. destruct (two256 <=? acc * radix + d) eqn:Eo.
      { split; [discriminate|]. intros (ds & H & Hd & Hn & Hlt). inversion H as [|? d' ? ds' Hc H']; subst.
        apply digit_value_spec in Hc, Ed. assert (d = d') as <- by congruence. cbn in Hlt.
        pose proof (fold_radix_le radix ds' (acc * radix + d) Hr). lia. }
      rewrite IH by lia. split.
      * intros (ds & H & Hd & Hn & Hlt). exists (d :: ds). repeat split; [|constructor; [lia|exact Hd]|exact Hn|exact Hlt].
        constructor; assumption.
      * intros (ds & H & Hd & Hn & Hlt). inversion H as [|? d' ? ds' Hc H']; subst. inversion Hd; subst.
        apply digit_value_spec in Hc, Ed. assert (d = d') as <- by congruence. exists ds'. auto.
    + split; [discriminate|]. intros (ds & H & _). inversion H as [|? d' ? ds' Hc H']; subst.
      apply digit_value_spec in Hc. congruence.
Qed.

Lemma from_str_radix_numeral radix text n : 0 < radix ->
  from_str_radix radix text 0 = Some n <-> numeral radix text n /\ n < two256.
Proof.
  intros Hr. rewrite (from_str_radix_spec radix text Hr) by reflexivity. unfold numeral. split.
  - intros (ds & H1 & H2 & H3 & H4). eauto 6.
  - intros ((ds & H1 & H2 & H3) & H4). eauto 6.
Qed.

Lemma prefix_radix_spec c radix : prefix_radix c = Some radix <->
  (c = 120 \/ c = 88) /\ radix = 16 \/ (c = 111 \/ c = 79) /\ radix = 8 \/ (c = 98 \/ c = 66) /\ radix = 2.
Proof.
  unfold prefix_radix.
  destruct ((c =? 120) || (c =? 88)) eqn:E1; [split; [intros [= <-]; lia|intros; f_equal; lia]|].
  destruct ((c =? 111) || (c =? 79)) eqn:E2; [split; [intros [= <-]; lia|intros; f_equal; lia]|].
  destruct ((c =? 98) || (c =? 66)) eqn:E3; [split; [intros [= <-]; lia|intros; f_equal; lia]|].
  split; [discriminate|lia].
Qed.

(** A text with a prefix is not a decimal number. *)
Lemma prefixed_not_decimal c rest radix n : prefix_radix c = Some radix -> ~ numeral 10 (48 :: c :: rest) n.
Proof.
  intros Hp%prefix_radix_spec (ds & H & Hd & _). cbn in H.
  assert (Hc : negb (c =? 95) = true) by lia. rewrite Hc in H.
  inversion H as [|? d1 ? ds1 _ H1]; subst. inversion H1 as [|? d2 ? ds2 H2 _]; subst.
  inversion Hd as [|? ? _ Hd1]; subst. inversion Hd1; subst. unfold digit in H2. lia.
Qed.

Lemma u256_from_str_spec text n : u256_from_str text = Some n <-> amount_text text n /\ n < two256.
Proof.
  assert (Hplain : (forall c rest radix, text = 48 :: c :: rest -> prefix_radix c <> Some radix) ->
    from_str_radix 10 text 0 = Some n <-> amount_text text n /\ n < two256).
  { intros Hno. rewrite from_str_radix_numeral by reflexivity. unfold amount_text. split; [tauto|].
    intros [[H|(c & rest & radix & -> & _ & H)] Hlt]; [tauto|]. apply prefix_radix_spec in H.
    now destruct (Hno c rest radix eq_refl). }
  destruct text as [|z [|c rest]]; cbn [u256_from_str]; [apply Hplain; discriminate|apply Hplain; discriminate|].
  destruct (z =? 48) eqn:Ez; [|apply Hplain; intros ? ? ? [= -> _ _]; discriminate].
  apply N.eqb_eq in Ez as ->.
  destruct (prefix_radix c) as [radix|] eqn:Ep; [|apply Hplain; intros ? ? ? [= <- _]; congruence].
  pose proof (proj1 (prefix_radix_spec c radix) Ep) as Hcase.
  rewrite from_str_radix_numeral by lia. unfold amount_text. split.
  - intros [H Hlt]. split; [|exact Hlt]. right. exists c, rest, radix. auto.
  - intros [[H|(c' & rest' & radix' & [= <- <-] & H & Hr)] Hlt].
    + now apply (prefixed_not_decimal c rest radix n Ep) in H.
    + apply prefix_radix_spec in Hr. assert (radix = radix') as -> by congruence. auto.
Qed.

Lemma decimal_numeral n text : is_decimal n text -> numeral 10 text n.
Proof.
  intros (Hf & _ & <-). exists (map (fun c => c - 48) text).
  assert (Hfil : List.filter (fun c => negb (c =? 95)) text = text).
  { induction Hf as [|c text Hc Hf IH]; cbn; [reflexivity|]. rewrite IH. destruct (c =? 95) eqn:E; [lia|reflexivity]. }
  rewrite Hfil. repeat split.
  - clear Hfil. induction Hf as [|c text Hc Hf IH]; cbn; constructor; [unfold digit; lia|exact IH].
  - clear Hfil. induction Hf as [|c text Hc Hf IH]; cbn; constructor; [lia|exact IH].
  - clear. generalize 0. induction text as [|c text IH]; intros acc; cbn; [reflexivity|apply IH].
Qed.

Lemma u256_of_decimal n text : is_decimal n text -> n < two256 -> u256_from_str text = Some n.
Proof. intros H Hlt. apply u256_from_str_spec. split; [left; now apply decimal_numeral|exact Hlt]. Qed.

(** ** A balance *)

Lemma fetch_balance_runs fuel address tr o : runs (fetch_balance fuel address) tr o ->
  exists r, runs (with_retry fuel (ask (QBalance address))) tr r /\
    o = match r with
        | Some (Ok text) => Some (match u256_from_str text with Some n => Ok n | None => Err BalanceText end)
        | Some (Err e) => Some (Err (BalanceRpc e))
        | None => None
        end.
Proof.
  unfold fetch_balance. intros H. apply runs_bind in H. destruct H as (tr1 & tr2 & r & -> & H & [-> ->]).
  rewrite app_nil_r. eauto.
Qed.
