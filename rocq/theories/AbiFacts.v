(** Decoding an ABI encoding gives back the value. *)
From Verif Require Export TypedSpec.
From Verif Require Import Bytes.
From Coq Require Import ZifyBool ZifyN ZifyNat.
Open Scope N_scope.

Lemma word_length x : length (word x) = 32%nat.
Proof. apply be_bytes_length. Qed.

Lemma from_be_word x : is_word x -> from_be (word x) = x.
Proof. intros H. unfold word. rewrite from_be_be_bytes. now apply N.mod_small. Qed.

Lemma read_word_0 x bs : is_word x -> read_word (word x ++ bs) 0 = Some x.
Proof.
  intros H. unfold read_word. rewrite app_length, word_length.
  destruct (N.leb_spec (0 + 32) (N.of_nat (32 + length bs))); [|lia].
  rewrite N2Nat.inj_0, drop_0, take_app_alt by (now rewrite word_length). now rewrite from_be_word.
Qed.

Lemma read_word_skip p bs n k :
  length p = n -> read_word (p ++ bs) (N.of_nat n + k) = read_word bs k.
Proof.
  intros <-. unfold read_word. rewrite app_length.
  replace (N.to_nat (N.of_nat (length p) + k)) with (length p + N.to_nat k)%nat by lia.
  rewrite <- drop_drop, drop_app.
  destruct (N.leb_spec (N.of_nat (length p) + k + 32) (N.of_nat (length p + length bs))),
    (N.leb_spec (k + 32) (N.of_nat (length bs))); try lia; reflexivity.
Qed.

Lemma slice_skip p bs n k :
  length p = n -> slice_from (p ++ bs) (N.of_nat n + k) = slice_from bs k.
Proof.
  intros <-. unfold slice_from. rewrite app_length.
  replace (N.to_nat (N.of_nat (length p) + k)) with (length p + N.to_nat k)%nat by lia.
  rewrite <- drop_drop, drop_app.
  destruct (N.leb_spec (N.of_nat (length p) + k) (N.of_nat (length p + length bs))),
    (N.leb_spec k (N.of_nat (length bs))); try lia; reflexivity.
Qed.

Lemma slice_0 bs : slice_from bs 0 = Some bs.
Proof. unfold slice_from. destruct (N.leb_spec 0 (N.of_nat (length bs))); [|lia]. now rewrite drop_0. Qed.

(** The two at the offsets of words. *)
Lemma read_word_32 x bs k : read_word (word x ++ bs) (32 + k) = read_word bs k.
Proof. exact (read_word_skip (word x) bs 32 k (word_length x)). Qed.
Lemma slice_32 x bs k : slice_from (word x ++ bs) (32 + k) = slice_from bs k.
Proof. exact (slice_skip (word x) bs 32 k (word_length x)). Qed.

Lemma slice_4 a b c d bs : slice_from (word a ++ word b ++ word c ++ word d ++ bs) 128 = Some bs.
Proof. change 128 with (32 + (32 + (32 + (32 + 0)))). now rewrite !slice_32, slice_0. Qed.
Lemma slice_1 a bs : slice_from (word a ++ bs) 32 = Some bs.
Proof. change 32 with (32 + 0). now rewrite slice_32, slice_0. Qed.
Lemma read_1 a x bs : is_word x -> read_word (word a ++ word x ++ bs) 32 = Some x.
Proof. change 32 with (32 + 0). rewrite read_word_32. apply read_word_0. Qed.
Lemma read_2 a b x bs : is_word x -> read_word (word a ++ word b ++ word x ++ bs) 64 = Some x.
Proof. change 64 with (32 + (32 + 0)). rewrite !read_word_32. apply read_word_0. Qed.
Lemma read_3 a b c x bs : is_word x -> read_word (word a ++ word b ++ word c ++ word x ++ bs) 96 = Some x.
Proof. change 96 with (32 + (32 + (32 + 0))). rewrite !read_word_32. apply read_word_0. Qed.

Lemma decode_bytes_spec bs rest :
  N.of_nat (length bs) < 2 ^ 256 -> decode_bytes (abi_bytes bs ++ rest) = Some bs.
Proof.
  intros H. unfold decode_bytes, abi_bytes. rewrite <- !app_assoc, read_word_0 by exact H. cbn [mbind option_bind].
  rewrite slice_1. cbn [mbind option_bind].
  rewrite !app_length.
  destruct (N.leb_spec (N.of_nat (length bs)) (N.of_nat (length bs + (length (padding bs) + length rest)))); [|lia].
  now rewrite Nat2N.id, take_app.
Qed.

Lemma small_word n : n < 2 ^ 64 -> is_word n.
Proof. intros H. unfold is_word. eapply N.lt_trans; [exact H|]. now apply N.pow_lt_mono_r. Qed.

Lemma variant_word v : is_word (sol_variant_tag v).
Proof. apply small_word. eapply N.lt_trans; [|now apply (N.pow_lt_mono_r 2 2 64)]. destruct v; now vm_compute. Qed.
Lemma status_word v : is_word (tx_status_tag v).
Proof. apply small_word. eapply N.lt_trans; [|now apply (N.pow_lt_mono_r 2 2 64)]. destruct v; now vm_compute. Qed.
Lemma const_word n : n < 2 ^ 16 -> is_word n.
Proof. intros H. apply small_word. eapply N.lt_trans; [exact H|]. now apply N.pow_lt_mono_r. Qed.

Lemma decode_receipt_spec r rest : typed_sol_receipt r -> decode_receipt (abi_receipt r ++ rest) = Some r.
Proof.
  intros [Hid [_ Hact]]. unfold decode_receipt, abi_receipt. rewrite <- !app_assoc.
  rewrite read_word_0 by apply variant_word. cbn [mbind option_bind].
  assert (Hv : sol_variant_of (sol_variant_tag (sr_variant r)) = Some (sr_variant r)) by now destruct (sr_variant r).
  rewrite Hv. cbn [mbind option_bind].
  rewrite read_1 by apply status_word. cbn [mbind option_bind].
  assert (Hs : tx_status_of (tx_status_tag (sr_status r)) = Some (sr_status r)) by now destruct (sr_status r).
  rewrite Hs. cbn [mbind option_bind].
  rewrite read_2 by (now apply small_word).
  cbn [mbind option_bind].
  rewrite read_3 by (now apply const_word).
  cbn [mbind option_bind].
  rewrite slice_4. cbn [mbind option_bind].
  rewrite decode_bytes_spec by (now apply small_word). cbn [mbind option_bind].
  destruct (N.ltb_spec (sr_tx_id r) two64) as [_|H]; [now destruct r|].
  exfalso. apply (N.lt_irrefl two64). eapply N.le_lt_trans; [exact H|exact Hid].
Qed.

Lemma offsets_length start tails : length (abi_offsets start tails) = (32 * length tails)%nat.
Proof.
  revert start. induction tails as [|t tails IH]; intros start; [reflexivity|].
  cbn [abi_offsets length]. rewrite app_length, word_length, IH. lia.
Qed.

Lemma decode_receipts_spec rs : forall i pre mid start,
  Forall typed_sol_receipt rs ->
  N.of_nat (length pre) = 32 * i ->
  start = 32 * i + 32 * N.of_nat (length rs) + N.of_nat (length mid) ->
  start + N.of_nat (length (concat (map abi_receipt rs))) < 2 ^ 256 ->
  decode_receipts (length rs) i
    (pre ++ abi_offsets start (map abi_receipt rs) ++ mid ++ concat (map abi_receipt rs)) = Some rs.
Proof.
  induction rs as [|r rs IH]; intros i pre mid start Hty Hpre Hstart Hlt; [reflexivity|].
  apply Forall_cons in Hty as [Hr Hrs]. cbn [map abi_offsets concat decode_receipts length].
  set (tail := abi_receipt r) in *. set (tails := map abi_receipt rs) in *.
  rewrite <- !app_assoc.
  rewrite <- (N.add_0_r (32 * i)), <- Hpre, read_word_skip by reflexivity.
  rewrite read_word_0 by (unfold is_word; eapply N.le_lt_trans; [|exact Hlt]; lia).
  cbn [mbind option_bind].
  assert (Hslice : slice_from (pre ++ word start ++ abi_offsets (start + N.of_nat (length tail)) tails ++
      mid ++ tail ++ concat tails) start = Some (tail ++ concat tails)).
  { assert (Hl : length (pre ++ word start ++ abi_offsets (start + N.of_nat (length tail)) tails ++ mid)
                 = N.to_nat start).
    { rewrite !app_length, word_length, offsets_length. unfold tails. rewrite map_length. cbn [length] in Hstart. lia. }
    pose proof (slice_skip _ (tail ++ concat tails) _ 0 Hl) as Hsk.
    rewrite <- !app_assoc, slice_0, N.add_0_r, N2Nat.id in Hsk. exact Hsk. }
  rewrite Hslice. cbn [mbind option_bind].
  rewrite (decode_receipt_spec r (concat tails) Hr : decode_receipt (tail ++ concat tails) = Some r). cbn [mbind option_bind].
  specialize (IH (i + 1) (pre ++ word start) (mid ++ tail) (start + N.of_nat (length tail)) Hrs).
  fold tails in IH. rewrite <- !app_assoc in IH. rewrite IH; [reflexivity| | |].
  - rewrite app_length, word_length. lia.
  - rewrite app_length. cbn [length] in Hstart. lia.
  - cbn [map concat] in Hlt. fold tail tails in Hlt. rewrite app_length in Hlt. lia.
Qed.

Lemma decode_step_spec p : typed_pv p -> decode_step (abi_step p) = Some p.
Proof.
  intros (Hold & Hnew & Hts & Hrs & Hlen). unfold decode_step.
  assert (Hn : N.of_nat (length (pv_receipts p)) <= N.of_nat (length (abi_step p))).
  { unfold abi_step, abi_receipts. rewrite !app_length, offsets_length, map_length. lia. }
  assert (Hend : 32 * N.of_nat (length (pv_receipts p)) +
      N.of_nat (length (concat (map abi_receipt (pv_receipts p)))) < 2 ^ 256).
  { eapply N.le_lt_trans; [|exact Hlen]. unfold abi_step, abi_receipts.
    rewrite !app_length, offsets_length, map_length. lia. }
  assert (Hdec : abi_step p = word 32 ++ word (pv_old_root p) ++ word (pv_new_root p) ++
    word (pv_timestamp p) ++ word 128 ++ word (N.of_nat (length (pv_receipts p))) ++
    abi_offsets (32 * N.of_nat (length (pv_receipts p))) (map abi_receipt (pv_receipts p)) ++
    concat (map abi_receipt (pv_receipts p))) by reflexivity.
  pose proof Hdec as Hdec'. rewrite Hdec.
  rewrite read_word_0 by (now apply const_word). cbn [mbind option_bind].
  rewrite slice_1. cbn [mbind option_bind].
  rewrite read_word_0 by exact Hold. cbn [mbind option_bind].
  rewrite read_1 by exact Hnew. cbn [mbind option_bind].
  rewrite read_2 by (now apply small_word).
  cbn [mbind option_bind].
  rewrite read_3 by (now apply const_word).
  cbn [mbind option_bind].
  rewrite slice_4. cbn [mbind option_bind].
  rewrite read_word_0 by (unfold is_word; eapply N.le_lt_trans; [exact Hn|exact Hlen]).
  cbn [mbind option_bind].
  rewrite slice_1. cbn [mbind option_bind].
  rewrite Nat2N.id.
  assert (Hc : (pv_timestamp p <? two64) = true) by (apply N.ltb_lt; exact Hts).
  rewrite Hc. cbn [andb]. rewrite <- Hdec'. apply N.leb_le in Hn. rewrite Hn.
  pose proof (decode_receipts_spec (pv_receipts p) 0 [] [] (32 * N.of_nat (length (pv_receipts p))) Hrs
    eq_refl) as Hd.
  rewrite !app_nil_l in Hd. rewrite Hd; [now destruct p|cbn [length]; lia|exact Hend].
Qed.
