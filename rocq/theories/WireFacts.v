(** The bytes of the model are those of the public formats. *)
From Verif Require Export WireSpec ProstFacts AbiFacts StfFacts.
From Verif Require Import Bytes.
From Coq Require Import ZifyBool ZifyN ZifyNat.
Open Scope N_scope.

(** ** Protobuf *)

Lemma read_varint_aux fuel : forall n rest, (0 < fuel)%nat -> n < 128 ^ N.of_nat fuel ->
  read_varint fuel (varint_aux fuel n ++ rest) = Some (n, rest).
Proof.
  induction fuel as [|fuel IH]; intros n rest Hf Hn; [lia|].
  replace (N.of_nat (S fuel)) with (N.of_nat fuel + 1) in Hn by lia.
  rewrite N.pow_add_r, N.pow_1_r in Hn.
  cbn [varint_aux]. pose proof (N.div_mod n 128 ltac:(lia)) as En.
  pose proof (N.mod_lt n 128 ltac:(lia)) as Ln.
  destruct (N.ltb_spec n 128) as [H|H]; cbn [app read_varint].
  - now rewrite (proj2 (N.ltb_lt n 128) H).
  - rewrite (proj2 (N.ltb_ge _ 128)) by lia.
    assert (Hq : n / 128 < 128 ^ N.of_nat fuel) by (apply N.div_lt_upper_bound; lia).
    destruct fuel as [|fuel].
    + cbn in Hq. assert (n / 128 >= 1) by (apply N.le_ge, N.div_le_lower_bound; lia). lia.
    + assert (n / 128 >= 1) by (apply N.le_ge, N.div_le_lower_bound; lia).
      rewrite IH by (lia || exact Hq). rewrite (proj2 (N.eqb_neq (n / 128) 0)) by lia.
      f_equal. f_equal. lia.
Qed.

Lemma read_varint_spec n rest : n < 2 ^ 64 -> read_varint 10 (varint n ++ rest) = Some (n, rest).
Proof.
  intros Hn. apply read_varint_aux; [lia|]. eapply N.lt_trans; [exact Hn|]. vm_compute. reflexivity.
Qed.

Definition pay (w : wire) : payload :=
  match w with WVarint n => Varint n | WLen bs => Delimited bs | WFixed32 n => Fixed32 n end.
Definition payf (f : N * wire) : N * payload := (f.1, pay f.2).

Lemma key_parts tag c : c < 8 -> (tag * 8 + c) / 8 = tag /\ (tag * 8 + c) mod 8 = c.
Proof.
  intros Hc. split.
  - rewrite N.add_comm, N.div_add by lia. rewrite N.div_small by exact Hc. lia.
  - rewrite N.add_comm, N.mod_add by lia. now apply N.mod_small.
Qed.

Lemma read_field_spec f rest : field_ok f -> read_field (encode_field f ++ rest) = Some (payf f, rest).
Proof.
  destruct f as [tag w]. intros [Ht Hw]. cbn [fst snd] in Ht, Hw.
  unfold read_field, encode_field, payf. destruct w as [n|bs|n]; cbn [wire_ok fst snd pay] in *; rewrite <- app_assoc.
  - rewrite read_varint_spec by (apply key_lt; [exact Ht|lia]).
    destruct (key_parts tag 0 ltac:(lia)) as [-> ->]. change (0 =? 0) with true. cbn match.
    now rewrite read_varint_spec.
  - rewrite read_varint_spec by (apply key_lt; [exact Ht|lia]).
    destruct (key_parts tag 2 ltac:(lia)) as [-> ->]. change (2 =? 0) with false. change (2 =? 2) with true. cbn match.
    rewrite <- app_assoc, read_varint_spec by exact Hw.
    rewrite (proj2 (N.leb_le _ _)) by (rewrite app_length; lia).
    rewrite Nat2N.id, take_app, drop_app. reflexivity.
  - rewrite read_varint_spec by (apply key_lt; [exact Ht|lia]).
    destruct (key_parts tag 5 ltac:(lia)) as [-> ->]. change (5 =? 0) with false. change (5 =? 2) with false.
    change (5 =? 5) with true. cbn match.
    assert (Hl : length (fixed32 n) = 4%nat) by (unfold fixed32; now rewrite reverse_length, be_bytes_length).
    rewrite (proj2 (Nat.leb_le _ _)) by (rewrite app_length; lia).
    rewrite <- Hl, take_app, drop_app. unfold fixed32.
    replace (rev (reverse (be_bytes 4 n))) with (be_bytes 4 n)
      by (unfold reverse; rewrite <- rev_alt, rev_involutive; reflexivity).
    rewrite from_be_be_bytes. rewrite N.mod_small by exact Hw. reflexivity.
Qed.

Lemma read_fields_spec fs : forall fuel, Forall field_ok fs -> (length fs <= fuel)%nat ->
  read_fields fuel (encode_fields fs) = Some (map payf fs).
Proof.
  induction fs as [|f fs IH]; intros fuel Hok Hl; [now destruct fuel|].
  inversion Hok as [|f' fs' Hf Hfs]; subst. destruct fuel as [|fuel]; [cbn in Hl; lia|].
  change (encode_fields (f :: fs)) with (encode_field f ++ encode_fields fs).
  cbn [read_fields]. destruct (encode_field f ++ encode_fields fs) as [|b bs] eqn:Hb.
  - now apply encode_field_nonempty in Hb.
  - rewrite <- Hb. rewrite read_field_spec by exact Hf.
    rewrite IH by (exact Hfs || (cbn in Hl; lia)). reflexivity.
Qed.

Lemma encode_fields_length fs : (length fs <= length (encode_fields fs))%nat.
Proof.
  induction fs as [|f fs IH]; [cbn; lia|].
  change (encode_fields (f :: fs)) with (encode_field f ++ encode_fields fs).
  rewrite app_length. cbn [length]. pose proof (encode_field_nonempty f []) as H. rewrite app_nil_r in H.
  destruct (encode_field f); [contradiction|cbn; lia].
Qed.

Lemma read_message_spec fs : Forall field_ok fs -> read_message (encode_fields fs) = Some (map payf fs).
Proof. intros H. apply read_fields_spec; [exact H|apply encode_fields_length]. Qed.

Lemma given_spec t fs : given t (map payf fs) = map pay (at_tag t fs).
Proof.
  unfold given, at_tag. induction fs as [|f fs IH]; [reflexivity|]. cbn.
  destruct (f.1 =? t); cbn; now rewrite IH.
Qed.

Lemma int32_wire z : is_i32 z -> int32 (Z.to_N (z mod 2 ^ 64)) = z.
Proof.
  unfold is_i32, int32. intros Hz.
  rewrite N2Z.inj_mod, Z2N.id by (apply Z.mod_pos_bound; lia).
  change (Z.of_N (2 ^ 32)) with (2 ^ 32)%Z.
  assert (Hm : ((z mod 2 ^ 64) mod 2 ^ 32 = if z <? 0 then z + 2 ^ 32 else z)%Z).
  { destruct (Z.ltb_spec z 0) as [Hn|Hn].
    - replace (z mod 2 ^ 64)%Z with (z + 2 ^ 64)%Z by (apply (Z.mod_unique _ _ (-1)); lia).
      symmetry. apply (Z.mod_unique _ _ (2 ^ 32 - 1)); lia.
    - rewrite (Z.mod_small z (2 ^ 64)) by lia. apply Z.mod_small. lia. }
  cbv zeta. rewrite Hm. clear Hm. destruct (Z.ltb_spec z 0) as [Hn|Hn];
    match goal with |- context [(?a <? 2 ^ 31)%Z] => destruct (Z.ltb_spec a (2 ^ 31)) end; lia.
Qed.

Notation ints ps := (flat_map (fun p => match p with Varint n => [n] | _ => [] end) ps).
Notation strs ps := (flat_map (fun p => match p with Delimited bs => [bs] | _ => [] end) ps).

Lemma val_u64 t n : default 0 (last (ints (map pay (map snd (f_u64 t n))))) = n.
Proof. unfold f_u64. destruct (N.eqb_spec n 0); subst; reflexivity. Qed.
Lemma val_enum t z : is_i32 z -> default 0%Z (int32 <$> last (ints (map pay (map snd (f_enum t z))))) = z.
Proof.
  intros Hz. unfold f_enum. destruct (Z.eqb_spec z 0) as [->|]; [reflexivity|].
  cbn [map snd pay flat_map app last fmap option_fmap option_map default]. now apply int32_wire.
Qed.
Lemma val_bool t b : negb (default 0 (last (ints (map pay (map snd (f_bool t b))))) =? 0) = b.
Proof. destruct b; reflexivity. Qed.
Lemma val_bytes t bs : default [] (last (strs (map pay (map snd (f_bytes t bs))))) = bs.
Proof. destruct bs; reflexivity. Qed.
Lemma val_opt_bytes t o : last (strs (map pay (map snd (f_opt_bytes t o)))) = o.
Proof. destruct o; reflexivity. Qed.
Lemma val_opt_u64 t o : last (ints (map pay (map snd (f_opt_u64 t o)))) = o.
Proof. destruct o; reflexivity. Qed.
Lemma val_opt_enum t o : if_some is_i32 o -> int32 <$> last (ints (map pay (map snd (f_opt_enum t o)))) = o.
Proof.
  intros Ho. destruct o as [z|]; [|reflexivity].
  cbn [f_opt_enum map snd pay flat_map app last fmap option_fmap option_map]. f_equal. apply int32_wire. now apply Ho.
Qed.
Lemma val_rep_bytes t l : strs (map pay (map snd (f_rep_bytes t l))) = l.
Proof. unfold f_rep_bytes. induction l as [|a l IH]; [reflexivity|]. cbn. now rewrite IH. Qed.
Lemma val_metadata t o : if_some (if_some (fun r => r < 2 ^ 32)) o ->
  (fun bs => last (words32 1 (default [] (read_message bs)))) <$> last (strs (map pay (map snd (f_metadata t o)))) = o.
Proof.
  intros Ho. destruct o as [m|]; [|reflexivity].
  cbn [f_metadata map snd pay flat_map app last fmap option_fmap option_map]. f_equal.
  rewrite read_message_spec.
  - destruct m; reflexivity.
  - destruct m as [r|]; [|constructor]. constructor; [|constructor]. split; [now vm_compute|].
    exact (Ho _ eq_refl _ eq_refl).
Qed.

Ltac reads :=
  rewrite given_spec; autorewrite with tags; cbn [N.eqb Pos.eqb app]; rewrite ?app_nil_r;
  first [apply val_u64 | apply val_enum; assumption | apply val_bool | apply val_bytes | apply val_opt_bytes
        | apply val_opt_u64 | apply val_opt_enum; assumption | apply val_rep_bytes | apply val_metadata; assumption].
Ltac read_body b :=
  destruct b; f_equal;
  unfold uint64, enum, boolean, blob, optional_uint64, optional_enum, optional_blob, integers, byte_strings;
  reads.

Lemma read_withdraw_spec b : typed_withdraw b ->
  read_withdraw <$> read_message (encode_withdraw b) = Some b.
Proof.
  intros Hb. unfold encode_withdraw. rewrite read_message_spec by exact (message_fields_ok (MWithdraw b) Hb).
  cbn [fmap option_fmap option_map]. f_equal. unfold typed_withdraw in Hb. decompose [and] Hb; clear Hb.
  unfold read_withdraw, withdraw_fields. read_body b.
Qed.

Lemma read_transfer_spec b : typed_transfer b ->
  read_transfer <$> read_message (encode_transfer b) = Some b.
Proof.
  intros Hb. unfold encode_transfer. rewrite read_message_spec by exact (message_fields_ok (MTransfer b) Hb).
  cbn [fmap option_fmap option_map]. f_equal. unfold typed_transfer in Hb. decompose [and] Hb; clear Hb.
  unfold read_transfer, transfer_fields. read_body b.
Qed.

Lemma read_delegation_spec b : typed_delegation b ->
  read_delegation <$> read_message (encode_delegation b) = Some b.
Proof.
  intros Hb. unfold encode_delegation. rewrite read_message_spec by exact (message_fields_ok (MDelegation b) Hb).
  cbn [fmap option_fmap option_map]. f_equal. unfold typed_delegation in Hb. decompose [and] Hb; clear Hb.
  unfold read_delegation, delegation_fields. read_body b.
Qed.

Lemma read_request_spec b : typed_request b ->
  read_request <$> read_message (encode_request b) = Some b.
Proof.
  intros Hb. unfold encode_request. rewrite read_message_spec by exact (message_fields_ok (MRequest b) Hb).
  cbn [fmap option_fmap option_map]. f_equal. unfold typed_request in Hb. decompose [and] Hb; clear Hb.
  unfold read_request, request_fields. read_body b.
Qed.

Lemma read_bid_spec b : typed_bid b ->
  read_bid <$> read_message (encode_bid b) = Some b.
Proof.
  intros Hb. unfold encode_bid. rewrite read_message_spec by exact (message_fields_ok (MBid b) Hb).
  cbn [fmap option_fmap option_map]. f_equal. unfold typed_bid in Hb. decompose [and] Hb; clear Hb.
  unfold read_bid, bid_fields. read_body b.
Qed.

Lemma read_settle_spec b : typed_settle b ->
  read_settle <$> read_message (encode_settle b) = Some b.
Proof.
  intros Hb. unfold encode_settle. rewrite read_message_spec by exact (message_fields_ok (MSettle b) Hb).
  cbn [fmap option_fmap option_map]. f_equal. unfold typed_settle in Hb. decompose [and] Hb; clear Hb.
  unfold read_settle, settle_fields. read_body b.
Qed.

Lemma read_execute_spec b : typed_execute b ->
  read_execute <$> read_message (encode_execute b) = Some b.
Proof.
  intros Hb. unfold encode_execute. rewrite read_message_spec by exact (message_fields_ok (MExecute b) Hb).
  cbn [fmap option_fmap option_map]. f_equal. unfold typed_execute in Hb. decompose [and] Hb; clear Hb.
  unfold read_execute, execute_fields. read_body b.
Qed.

Lemma read_fulfill_spec b : typed_fulfill b ->
  read_fulfill <$> read_message (encode_fulfill b) = Some b.
Proof.
  intros Hb. unfold encode_fulfill. rewrite read_message_spec by exact (message_fields_ok (MFulfill b) Hb).
  cbn [fmap option_fmap option_map]. f_equal. unfold typed_fulfill in Hb. decompose [and] Hb; clear Hb.
  unfold read_fulfill, fulfill_fields. read_body b.
Qed.

(** The order of the fields. *)
Definition from_tag (n : N) (fs : list (N * wire)) : Prop :=
  (forall f, f ∈ fs -> n <= f.1) /\ Sorted.StronglySorted N.le (map fst fs).

Lemma from_tag_nil n : from_tag n [].
Proof. split; [intros f Hf; now apply elem_of_nil in Hf|constructor]. Qed.
Lemma from_tag_app n t l rest : (forall f, f ∈ l -> f.1 = t) -> n <= t -> from_tag t rest ->
  from_tag n (l ++ rest).
Proof.
  intros Hl Hn [Hr Hs]. split.
  - intros f [Hf|Hf]%elem_of_app; [rewrite (Hl f Hf); exact Hn|]. specialize (Hr f Hf). lia.
  - induction l as [|f l IH]; [exact Hs|]. cbn [app map]. constructor.
    + apply IH. intros g Hg. apply Hl. now right.
    + apply Forall_forall. intros x (g & -> & Hg)%elem_of_list_fmap.
      rewrite (Hl f) by left. apply elem_of_app in Hg as [Hg|Hg]; [|now apply Hr].
      rewrite (Hl g) by now right. reflexivity.
Qed.
Lemma from_tag_last n t l : (forall f, f ∈ l -> f.1 = t) -> n <= t -> from_tag n l.
Proof. intros Hl Hn. rewrite <- (app_nil_r l). eapply from_tag_app; [exact Hl|exact Hn|apply from_tag_nil]. Qed.

Definition all_at (t : N) (l : list (N * wire)) : Prop := forall f, f ∈ l -> f.1 = t.
Lemma at_nil t : all_at t [].
Proof. intros f H. now apply elem_of_nil in H. Qed.
Lemma at_one t w : all_at t [(t, w)].
Proof. intros f H. now apply elem_of_list_singleton in H as ->. Qed.
Lemma at_u64 t n : all_at t (f_u64 t n).
Proof. unfold f_u64. destruct (n =? 0); [apply at_nil|apply at_one]. Qed.
Lemma at_enum t z : all_at t (f_enum t z).
Proof. unfold f_enum. destruct (z =? 0)%Z; [apply at_nil|apply at_one]. Qed.
Lemma at_bool t b : all_at t (f_bool t b).
Proof. destruct b; [apply at_one|apply at_nil]. Qed.
Lemma at_bytes t bs : all_at t (f_bytes t bs).
Proof. destruct bs; [apply at_nil|apply at_one]. Qed.
Lemma at_opt_bytes t o : all_at t (f_opt_bytes t o).
Proof. destruct o; [apply at_one|apply at_nil]. Qed.
Lemma at_opt_u64 t o : all_at t (f_opt_u64 t o).
Proof. destruct o; [apply at_one|apply at_nil]. Qed.
Lemma at_opt_enum t o : all_at t (f_opt_enum t o).
Proof. destruct o; [apply at_one|apply at_nil]. Qed.
Lemma at_metadata t o : all_at t (f_metadata t o).
Proof. destruct o; [apply at_one|apply at_nil]. Qed.
Lemma at_rep t l : all_at t (f_rep_bytes t l).
Proof. intros f H. now apply elem_of_list_fmap in H as (bs & -> & _). Qed.

Ltac one_tag :=
  match goal with
  | |- context [f_u64] => apply at_u64
  | |- context [f_enum] => apply at_enum
  | |- context [f_bool] => apply at_bool
  | |- context [f_bytes] => apply at_bytes
  | |- context [f_opt_bytes] => apply at_opt_bytes
  | |- context [f_opt_u64] => apply at_opt_u64
  | |- context [f_opt_enum] => apply at_opt_enum
  | |- context [f_metadata] => apply at_metadata
  | |- context [f_rep_bytes] => apply at_rep
  end.
Ltac in_order :=
  lazymatch goal with
  | |- from_tag _ (_ ++ _) => eapply from_tag_app; [one_tag|vm_compute; discriminate|in_order]
  | |- from_tag _ _ => eapply from_tag_last; [one_tag|vm_compute; discriminate]
  end.

Lemma fields_in_order m : from_tag 0 (message_fields m).
Proof.
  destruct m; cbn [message_fields];
    unfold request_fields, bid_fields, settle_fields, execute_fields, fulfill_fields, delegation_fields,
      transfer_fields, withdraw_fields; in_order.
Qed.

(** Defaults. *)
Definition is_default (w : wire) : Prop := w = WVarint 0 \/ w = WLen [].
Definition shown (l : list N) (fs : list (N * wire)) : Prop := forall f, f ∈ fs -> is_default f.2 -> f.1 ∈ l.

Lemma shown_app l f1 f2 : shown l f1 -> shown l f2 -> shown l (f1 ++ f2).
Proof. intros H1 H2 f [Hf|Hf]%elem_of_app; auto. Qed.
Lemma shown_at l t fs : all_at t fs -> t ∈ l -> shown l fs.
Proof. intros H Ht f Hf _. rewrite (H f Hf). exact Ht. Qed.
Lemma shown_nil l : shown l [].
Proof. intros f Hf. now apply elem_of_nil in Hf. Qed.
Lemma shown_one l t w : ~ is_default w -> shown l [(t, w)].
Proof. intros H f Hf Hd. apply elem_of_list_singleton in Hf as ->. contradiction. Qed.
Lemma shown_u64 l t n : shown l (f_u64 t n).
Proof.
  unfold f_u64. destruct (N.eqb_spec n 0) as [|H]; [apply shown_nil|apply shown_one].
  intros [E|E]; [injection E as E; contradiction|discriminate].
Qed.
Lemma shown_enum l t z : is_i32 z -> shown l (f_enum t z).
Proof.
  intros Hz. unfold f_enum. destruct (Z.eqb_spec z 0) as [|H]; [apply shown_nil|apply shown_one].
  intros [E|E]; [|discriminate]. injection E as E. apply H.
  pose proof (int32_wire z Hz) as Hw. rewrite E in Hw. symmetry. exact Hw.
Qed.
Lemma shown_bool l t b : shown l (f_bool t b).
Proof. destruct b; [apply shown_one|apply shown_nil]. intros [E|E]; discriminate. Qed.
Lemma shown_bytes l t bs : shown l (f_bytes t bs).
Proof. destruct bs; [apply shown_nil|apply shown_one]. intros [E|E]; discriminate. Qed.

Ltac show_all :=
  match goal with
  | |- shown _ (_ ++ _) => apply shown_app; [show_all|show_all]
  | |- shown _ (f_u64 _ _) => apply shown_u64
  | |- shown _ (f_enum _ _) => apply shown_enum; assumption
  | |- shown _ (f_bool _ _) => apply shown_bool
  | |- shown _ (f_bytes _ _) => apply shown_bytes
  | |- shown _ _ => eapply shown_at; [one_tag|apply elem_of_list_In; cbn; tauto]
  end.

Lemma fields_shown m : typed_message m -> shown (explicit_fields m) (message_fields m).
Proof.
  destruct m; cbn [message_fields typed_message explicit_fields]; intros Hm;
    unfold typed_request, typed_bid, typed_settle, typed_execute, typed_fulfill, typed_delegation,
      typed_transfer, typed_withdraw in Hm; decompose [and] Hm; clear Hm;
    unfold request_fields, bid_fields, settle_fields, execute_fields, fulfill_fields, delegation_fields,
      transfer_fields, withdraw_fields; show_all.
Qed.

(** All message types together. *)
Lemma read_message_bytes m : typed_message m ->
  exists xs, read_message (encode_message m) = Some xs /\
    Sorted.StronglySorted N.le (map fst xs) /\
    (forall n v, (n, v) ∈ xs -> v = Varint 0 \/ v = Delimited [] -> n ∈ explicit_fields m) /\
    m = match m with
        | MRequest _ => MRequest (read_request xs)
        | MBid _ => MBid (read_bid xs)
        | MSettle _ => MSettle (read_settle xs)
        | MExecute _ => MExecute (read_execute xs)
        | MFulfill _ => MFulfill (read_fulfill xs)
        | MDelegation _ => MDelegation (read_delegation xs)
        | MTransfer _ => MTransfer (read_transfer xs)
        | MWithdraw _ => MWithdraw (read_withdraw xs)
        end.
Proof.
  intros Hm. pose proof (read_message_spec _ (message_fields_ok m Hm)) as Hr.
  exists (map payf (message_fields m)).
  assert (He : encode_message m = encode_fields (message_fields m)) by (destruct m; reflexivity).
  rewrite He. split; [exact Hr|]. split; [|split].
  - rewrite map_map. exact (proj2 (fields_in_order m)).
  - intros n v ([t w] & Hp & Hf)%elem_of_list_fmap Hv. injection Hp as -> ->.
    apply (fields_shown m Hm _ Hf). cbn [snd] in *. unfold is_default.
    destruct Hv as [Hv|Hv]; destruct w; cbn [pay] in Hv; try discriminate; injection Hv as ->; auto.
  - destruct m as [b|b|b|b|b|b|b|b]; cbn [typed_message] in Hm; f_equal;
      [pose proof (read_request_spec b Hm) as H|pose proof (read_bid_spec b Hm) as H
      |pose proof (read_settle_spec b Hm) as H|pose proof (read_execute_spec b Hm) as H
      |pose proof (read_fulfill_spec b Hm) as H|pose proof (read_delegation_spec b Hm) as H
      |pose proof (read_transfer_spec b Hm) as H|pose proof (read_withdraw_spec b Hm) as H];
      cbn [encode_message] in He; rewrite He, Hr in H;
      cbn [fmap option_fmap option_map] in H; congruence.
Qed.

(** ** Solidity ABI *)

Lemma flat_dynamic xs : dynamic (flat_struct xs) = false.
Proof. unfold flat_struct. cbn [dynamic]. induction xs as [|x xs IH]; [reflexivity|exact IH]. Qed.

Lemma flat_heads xs n : abi_heads n (map (fun v => (dynamic v, abi_encode v)) (map AWord xs)) = flat_map word xs.
Proof. revert n. induction xs as [|x xs IH]; intros n; [reflexivity|]. cbn. now rewrite IH. Qed.
Lemma flat_tails xs :
  flat_map (fun p : bool * bytes => if p.1 then p.2 else [])
    (map (fun v => (dynamic v, abi_encode v)) (map AWord xs)) = [].
Proof. induction xs as [|x xs IH]; [reflexivity|exact IH]. Qed.
Lemma flat_encode xs : abi_encode (flat_struct xs) = flat_map word xs.
Proof.
  unfold flat_struct. cbn [abi_encode]. unfold abi_tuple. now rewrite flat_heads, flat_tails, app_nil_r.
Qed.

Lemma solidity_static v : dynamic v = false -> solidity v = abi_encode v.
Proof.
  intros H. unfold solidity. change (abi_encode (ATuple [v])) with (abi_tuple [(dynamic v, abi_encode v)]).
  rewrite H. unfold abi_tuple. cbn. now rewrite !app_nil_r.
Qed.
Lemma solidity_dynamic v : dynamic v = true -> solidity v = word 32 ++ abi_encode v.
Proof.
  intros H. unfold solidity. change (abi_encode (ATuple [v])) with (abi_tuple [(dynamic v, abi_encode v)]).
  rewrite H. unfold abi_tuple. cbn [abi_heads flat_map fold_right fst snd app]. now rewrite !app_nil_r.
Qed.

Lemma solidity_flat xs : solidity (flat_struct xs) = flat_map word xs.
Proof. rewrite solidity_static by apply flat_dynamic. apply flat_encode. Qed.

Lemma filler_padding bs : filler (length bs) = padding bs.
Proof.
  unfold filler, padding. generalize ((32 - length bs mod 32) mod 32)%nat. intros n.
  induction n as [|n IH]; [reflexivity|]. cbn. now f_equal.
Qed.

Lemma bytes_encode bs : abi_encode (ABytes bs) = abi_bytes bs.
Proof. cbn [abi_encode]. unfold abi_bytes. now rewrite filler_padding. Qed.

Lemma receipt_tuple a b c bs :
  abi_encode (ATuple [AWord a; AWord b; AWord c; ABytes bs]) =
  word a ++ word b ++ word c ++ word 128 ++ abi_bytes bs.
Proof.
  rewrite <- bytes_encode.
  change (abi_encode (ATuple [AWord a; AWord b; AWord c; ABytes bs])) with
    (abi_tuple [(false, word a); (false, word b); (false, word c); (true, abi_encode (ABytes bs))]).
  unfold abi_tuple. cbn [abi_heads flat_map fold_right fst snd app]. unfold word.
  rewrite !be_bytes_length, !app_nil_r, <- !app_assoc. reflexivity.
Qed.

Lemma receipt_encode r : abi_encode (receipt_value r) = abi_receipt (sol_of_receipt r).
Proof.
  destruct r as [o|o|o]; unfold receipt_value; rewrite receipt_tuple, solidity_flat;
    unfold abi_receipt, sol_of_receipt; cbn [sr_variant sr_status sr_tx_id sr_action sol_variant_tag];
    cbn [flat_map]; rewrite app_nil_r; reflexivity.
Qed.

Lemma receipt_dynamic r : dynamic (receipt_value r) = true.
Proof. destruct r; reflexivity. Qed.

Lemma heads_offsets tails : forall n,
  abi_heads n (map (pair true) tails) = abi_offsets (N.of_nat n) tails.
Proof.
  induction tails as [|t ts IH]; intros n; [reflexivity|]. cbn [map abi_heads abi_offsets].
  rewrite IH. unfold word. do 2 f_equal. lia.
Qed.

Lemma dynamic_tuple tails :
  abi_tuple (map (pair true) tails) = abi_offsets (32 * N.of_nat (length tails)) tails ++ concat tails.
Proof.
  unfold abi_tuple. f_equal.
  - rewrite heads_offsets. f_equal. induction tails as [|t ts IH]; [reflexivity|]. cbn [map fold_right fst length]. lia.
  - induction tails as [|t ts IH]; [reflexivity|]. cbn. now rewrite IH.
Qed.

Lemma receipts_encode rs : abi_encode (AArray (map receipt_value rs)) = abi_receipts (map sol_of_receipt rs).
Proof.
  unfold abi_receipts. cbn [abi_encode]. rewrite !map_length. f_equal.
  replace (map (fun v => (dynamic v, abi_encode v)) (map receipt_value rs))
    with (map (pair true) (map abi_receipt (map sol_of_receipt rs))).
  - rewrite dynamic_tuple, !map_length. reflexivity.
  - rewrite !map_map. apply map_ext. intros r. now rewrite receipt_dynamic, receipt_encode.
Qed.

Lemma step_encode old new ts rs :
  solidity (step_value old new ts rs) = abi_step (StepPv old new ts (map sol_of_receipt rs)).
Proof.
  rewrite solidity_dynamic by reflexivity. unfold abi_step, step_value. f_equal.
  cbn [pv_old_root pv_new_root pv_timestamp pv_receipts]. rewrite <- receipts_encode.
  change (abi_encode (ATuple [AWord old; AWord new; AWord ts; AArray (map receipt_value rs)])) with
    (abi_tuple [(false, word old); (false, word new); (false, word ts);
                (true, abi_encode (AArray (map receipt_value rs)))]).
  unfold abi_tuple. cbn [abi_heads flat_map fold_right fst snd app]. unfold word.
  rewrite !be_bytes_length, !app_nil_r, <- !app_assoc. reflexivity.
Qed.

(** ** The commitment *)

Lemma subtree_accounts E m h : forall i, subtree (keccak E) (account_leaf m) h i = tree_hash (account_tree E) m h i.
Proof.
  induction h as [|h IH]; intros i; cbn [subtree tree_hash].
  - unfold account_leaf. destruct (m !! i) as [a|]; [|reflexivity]. cbn [fmap option_fmap option_map].
    rewrite solidity_flat. cbn [flat_map]. rewrite app_nil_r. reflexivity.
  - rewrite !IH. reflexivity.
Qed.
Lemma subtree_flags E m h : forall i, subtree (keccak E) (flag_leaf m) h i = tree_hash (request_tree E) m h i.
Proof.
  induction h as [|h IH]; intros i; cbn [subtree tree_hash].
  - unfold flag_leaf. destruct (m !! i) as [b|]; reflexivity.
  - rewrite !IH. reflexivity.
Qed.

Lemma full_root_commitment E s : state_ok E s -> full_root E s = state_commitment E s.
Proof.
  intros Hs. unfold full_root, state_commitment, container_hash.
  rewrite account_root_spec, request_root_spec by exact Hs.
  rewrite subtree_accounts, subtree_flags, solidity_flat.
  cbn [flat_map]. rewrite app_nil_r. reflexivity.
Qed.
