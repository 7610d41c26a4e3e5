(** The binary encoding of message bodies is injective. *)
From Verif Require Export TypedSpec.
From Verif Require Import Bytes.
From Coq Require Import ZifyBool ZifyN ZifyNat.
Open Scope N_scope.

(** ** Variable-length integers *)

Lemma varint_aux_inj fuel : forall n m a b,
  n < 128 ^ N.of_nat fuel -> m < 128 ^ N.of_nat fuel ->
  varint_aux fuel n ++ a = varint_aux fuel m ++ b -> n = m /\ a = b.
Proof.
  induction fuel as [|fuel IH]; intros n m a b Hn Hm H.
  - cbn in Hn, Hm. split; [lia|exact H].
  - cbn [varint_aux] in H.
    replace (N.of_nat (S fuel)) with (N.of_nat fuel + 1) in * by lia.
    rewrite N.pow_add_r, N.pow_1_r in Hn, Hm.
    pose proof (N.div_mod n 128 ltac:(lia)) as En. pose proof (N.div_mod m 128 ltac:(lia)) as Em.
    pose proof (N.mod_lt n 128 ltac:(lia)) as Ln. pose proof (N.mod_lt m 128 ltac:(lia)) as Lm.
    destruct (N.ltb_spec n 128) as [H1|H1], (N.ltb_spec m 128) as [H2|H2]; cbn [app] in H.
    + injection H as -> ->. now split.
    + injection H as H3 H4. lia.
    + injection H as H3 H4. lia.
    + injection H as H3 H4. apply IH in H4 as [H4 H5]; [|apply N.div_lt_upper_bound; lia..].
      split; [lia|exact H5].
Qed.

Lemma varint_inj n m a b : n < 2 ^ 64 -> m < 2 ^ 64 -> varint n ++ a = varint m ++ b -> n = m /\ a = b.
Proof.
  intros Hn Hm. unfold varint.
  assert (H64 : 2 ^ 64 < 128 ^ N.of_nat 10) by (vm_compute; reflexivity).
  apply varint_aux_inj; eapply N.lt_trans; eassumption.
Qed.

Lemma varint_nonempty n : varint n <> [].
Proof. unfold varint. cbn [varint_aux]. destruct (_ <? _); discriminate. Qed.

(** ** Fields *)

Definition wire_ok (w : wire) : Prop :=
  match w with
  | WVarint n => n < 2 ^ 64
  | WLen bs => N.of_nat (length bs) < 2 ^ 64
  | WFixed32 n => n < 2 ^ 32
  end.
Definition field_ok (f : N * wire) : Prop := f.1 < 2 ^ 29 /\ wire_ok f.2.

Lemma key_lt tag c : tag < 2 ^ 29 -> c < 8 -> tag * 8 + c < 2 ^ 64.
Proof. intros H Hc. assert (2 ^ 29 * 8 < 2 ^ 64) by (vm_compute; reflexivity). lia. Qed.

Lemma encode_field_nonempty f rest : encode_field f ++ rest <> [].
Proof.
  destruct f as [tag [n|bs|n]]; cbn [encode_field]; rewrite <- !app_assoc; intros H;
    apply app_eq_nil in H as [H _]; now apply varint_nonempty in H.
Qed.

Lemma app_inj_len {X} (a b c d : list X) : length a = length c -> a ++ b = c ++ d -> a = c /\ b = d.
Proof. intros Hl H. now apply app_inj_1 in H. Qed.

Lemma fixed32_inj n m : n < 2 ^ 32 -> m < 2 ^ 32 -> fixed32 n = fixed32 m -> n = m.
Proof.
  intros Hn Hm H. unfold fixed32 in H. apply (inj reverse) in H. now apply (be_bytes_inj 4) in H.
Qed.

Lemma encode_field_inj f g a b : field_ok f -> field_ok g ->
  encode_field f ++ a = encode_field g ++ b -> f = g /\ a = b.
Proof.
  destruct f as [t v], g as [t' v']. intros [Ht Hv] [Ht' Hv'] H. cbn [fst snd] in *.
  assert (Hkey : forall c c' x y, c < 8 -> c' < 8 ->
    varint (t * 8 + c) ++ x = varint (t' * 8 + c') ++ y -> t = t' /\ c = c' /\ x = y).
  { intros c c' x y Hc Hc' Hx. apply varint_inj in Hx as [Hx Hy]; [|now apply key_lt..].
    split; [lia|]. split; [lia|exact Hy]. }
  destruct v as [n|bs|n], v' as [n'|bs'|n']; cbn [encode_field wire_ok] in *; rewrite <- !app_assoc in H;
    apply Hkey in H as (-> & Hc & H); try lia; clear Hc Hkey.
  - apply varint_inj in H as [-> ->]; [now split|exact Hv|exact Hv'].
  - apply varint_inj in H as [Hl H]; [|exact Hv|exact Hv'].
    apply app_inj_len in H as [-> ->]; [now split|lia].
  - apply app_inj_len in H as [H ->]; [|unfold fixed32; now rewrite !reverse_length, !be_bytes_length].
    apply fixed32_inj in H as ->; [now split|exact Hv|exact Hv'].
Qed.

Lemma encode_fields_inj fs : forall gs, Forall field_ok fs -> Forall field_ok gs ->
  encode_fields fs = encode_fields gs -> fs = gs.
Proof.
  unfold encode_fields.
  induction fs as [|f fs IH]; intros [|g gs] Hf Hg H; cbn [map concat] in H.
  - reflexivity.
  - exfalso. symmetry in H. now apply encode_field_nonempty in H.
  - exfalso. now apply encode_field_nonempty in H.
  - apply Forall_cons in Hf as [Hf Hfs], Hg as [Hg Hgs].
    apply encode_field_inj in H as [-> H]; [|assumption..]. f_equal. now apply IH.
Qed.

(** ** Field lists *)

(** The values of the fields with a given tag. *)
Definition at_tag (t : N) (fs : list (N * wire)) : list wire :=
  map snd (List.filter (fun f => f.1 =? t) fs).

Lemma at_tag_app t fs gs : at_tag t (fs ++ gs) = at_tag t fs ++ at_tag t gs.
Proof. unfold at_tag. now rewrite List.filter_app, map_app. Qed.

(** All fields of the list have this tag. *)
Definition all_tag (t : N) (fs : list (N * wire)) : Prop := Forall (fun f => f.1 = t) fs.

Lemma at_tag_all t fs : all_tag t fs -> at_tag t fs = map snd fs.
Proof.
  unfold at_tag. induction 1 as [|f fs Hf _ IH]; [reflexivity|]. cbn. rewrite Hf, N.eqb_refl. cbn. now rewrite IH.
Qed.
Lemma at_tag_other t u fs : all_tag u fs -> u <> t -> at_tag t fs = [].
Proof.
  intros H Hn. unfold at_tag. induction H as [|f fs Hf _ IH]; [reflexivity|]. cbn.
  rewrite Hf. destruct (N.eqb_spec u t); [contradiction|exact IH].
Qed.

Lemma all_u64 t n : all_tag t (f_u64 t n).
Proof. unfold f_u64. destruct (_ =? _); repeat constructor. Qed.
Lemma all_enum t n : all_tag t (f_enum t n).
Proof. unfold f_enum. destruct (Z.eqb _ _); repeat constructor. Qed.
Lemma all_bool t n : all_tag t (f_bool t n).
Proof. unfold f_bool. destruct n; repeat constructor. Qed.
Lemma all_bytes t n : all_tag t (f_bytes t n).
Proof. destruct n; repeat constructor. Qed.
Lemma all_opt_bytes t n : all_tag t (f_opt_bytes t n).
Proof. destruct n; repeat constructor. Qed.
Lemma all_opt_u64 t n : all_tag t (f_opt_u64 t n).
Proof. destruct n; repeat constructor. Qed.
Lemma all_opt_enum t n : all_tag t (f_opt_enum t n).
Proof. destruct n; repeat constructor. Qed.
Lemma all_rep_bytes t n : all_tag t (f_rep_bytes t n).
Proof. unfold all_tag, f_rep_bytes. apply Forall_map, Forall_true. reflexivity. Qed.
Lemma all_metadata t n : all_tag t (f_metadata t n).
Proof. destruct n; repeat constructor. Qed.

Global Hint Resolve all_u64 all_enum all_bool all_bytes all_opt_bytes all_opt_u64 all_opt_enum all_rep_bytes
  all_metadata : tags.

Lemma inj_u64 t n m : map snd (f_u64 t n) = map snd (f_u64 t m) -> n = m.
Proof. unfold f_u64. destruct (N.eqb_spec n 0), (N.eqb_spec m 0); cbn; congruence. Qed.
Lemma enum_wire z : is_i32 z -> forall z', is_i32 z' ->
  Z.to_N (z mod 2 ^ 64) = Z.to_N (z' mod 2 ^ 64) -> z = z'.
Proof.
  unfold is_i32. intros Hz z' Hz' H.
  assert (Hr : forall x, (- 2 ^ 31 <= x < 2 ^ 31)%Z ->
    (x mod 2 ^ 64 = if x <? 0 then x + 2 ^ 64 else x)%Z).
  { intros x Hx. destruct (Z.ltb_spec x 0).
    - symmetry. apply (Z.mod_unique _ _ (-1)); lia.
    - apply Z.mod_small. lia. }
  rewrite !Hr in H by assumption. destruct (Z.ltb_spec z 0), (Z.ltb_spec z' 0); lia.
Qed.
Lemma inj_enum t n m : is_i32 n -> is_i32 m -> map snd (f_enum t n) = map snd (f_enum t m) -> n = m.
Proof.
  intros Hn Hm. unfold f_enum. destruct (Z.eqb_spec n 0), (Z.eqb_spec m 0); cbn [map snd]; try congruence.
  intros H. apply enum_wire; [assumption..|]. now injection H.
Qed.
Lemma inj_bool t n m : map snd (f_bool t n) = map snd (f_bool t m) -> n = m.
Proof. destruct n, m; cbn; congruence. Qed.
Lemma inj_bytes t n m : map snd (f_bytes t n) = map snd (f_bytes t m) -> n = m.
Proof. destruct n, m; cbn; congruence. Qed.
Lemma inj_opt_bytes t n m : map snd (f_opt_bytes t n) = map snd (f_opt_bytes t m) -> n = m.
Proof. destruct n, m; cbn; congruence. Qed.
Lemma inj_opt_u64 t n m : map snd (f_opt_u64 t n) = map snd (f_opt_u64 t m) -> n = m.
Proof. destruct n, m; cbn; congruence. Qed.
Lemma inj_opt_enum t n m : if_some is_i32 n -> if_some is_i32 m ->
  map snd (f_opt_enum t n) = map snd (f_opt_enum t m) -> n = m.
Proof.
  intros Hn Hm. destruct n as [n|], m as [m|]; cbn [f_opt_enum map snd]; try congruence. intros H.
  f_equal. apply enum_wire; [now apply Hn|now apply Hm|]. now injection H.
Qed.
Lemma inj_rep_bytes t n : forall m, map snd (f_rep_bytes t n) = map snd (f_rep_bytes t m) -> n = m.
Proof.
  induction n as [|a n IH]; intros [|b m] H; try discriminate; [reflexivity|].
  cbn in H. injection H as -> H. f_equal. now apply IH.
Qed.
Lemma inj_metadata t n m : if_some (if_some (fun r => r < 2 ^ 32)) n -> if_some (if_some (fun r => r < 2 ^ 32)) m ->
  map snd (f_metadata t n) = map snd (f_metadata t m) -> n = m.
Proof.
  intros Hn Hm. destruct n as [n|], m as [m|]; cbn [f_metadata map snd]; try congruence. intros H. f_equal.
  injection H as H. apply encode_fields_inj in H.
  - destruct n, m; congruence.
  - destruct n as [n|]; [|constructor]. constructor; [|constructor]. split; [now vm_compute|].
    exact (Hn _ eq_refl _ eq_refl).
  - destruct m as [m|]; [|constructor]. constructor; [|constructor]. split; [now vm_compute|].
    exact (Hm _ eq_refl _ eq_refl).
Qed.

(** ** All fields are encodable *)

Lemma ok_u64 t n : t < 2 ^ 29 -> is_u64 n -> Forall field_ok (f_u64 t n).
Proof. intros. unfold f_u64. destruct (_ =? _); repeat constructor; assumption. Qed.
Lemma ok_wire_enum z : Z.to_N (z mod 2 ^ 64) < 2 ^ 64.
Proof.
  pose proof (Z.mod_pos_bound z (2 ^ 64) ltac:(lia)) as H.
  apply N2Z.inj_lt. rewrite Z2N.id by lia. exact (proj2 H).
Qed.
Lemma ok_enum t n : t < 2 ^ 29 -> Forall field_ok (f_enum t n).
Proof. intros. unfold f_enum. destruct (Z.eqb _ _); repeat constructor; [assumption|apply ok_wire_enum]. Qed.
Lemma ok_bool t n : t < 2 ^ 29 -> Forall field_ok (f_bool t n).
Proof. intros. unfold f_bool. destruct n; repeat constructor. assumption. Qed.
Lemma ok_bytes t n : t < 2 ^ 29 -> is_bytes n -> Forall field_ok (f_bytes t n).
Proof. intros H [_ Hn]. destruct n; constructor; [split; assumption|constructor]. Qed.
Lemma ok_opt_bytes t n : t < 2 ^ 29 -> if_some is_bytes n -> Forall field_ok (f_opt_bytes t n).
Proof. intros H Hn. destruct n; constructor; [|constructor]. split; [assumption|]. now apply Hn. Qed.
Lemma ok_opt_u64 t n : t < 2 ^ 29 -> if_some is_u64 n -> Forall field_ok (f_opt_u64 t n).
Proof. intros H Hn. destruct n; constructor; [|constructor]. split; [assumption|]. now apply Hn. Qed.
Lemma ok_opt_enum t n : t < 2 ^ 29 -> Forall field_ok (f_opt_enum t n).
Proof. intros H. destruct n; constructor; [|constructor]. split; [assumption|apply ok_wire_enum]. Qed.
Lemma ok_rep_bytes t n : t < 2 ^ 29 -> Forall is_bytes n -> Forall field_ok (f_rep_bytes t n).
Proof.
  intros H Hn. unfold f_rep_bytes. apply Forall_map. eapply Forall_impl; [exact Hn|].
  intros bs [_ Hb]. split; assumption.
Qed.
Lemma ok_metadata t n : t < 2 ^ 29 -> Forall field_ok (f_metadata t n).
Proof.
  intros H. destruct n as [[n|]|]; repeat constructor; assumption.
Qed.

(** ** Messages *)

Lemma at_u64 t u n : at_tag t (f_u64 u n) = if u =? t then map snd (f_u64 u n) else [].
Proof.
  destruct (N.eqb_spec u t) as [->|Hn]; [now apply at_tag_all; auto with tags|].
  eapply at_tag_other; [apply all_u64|exact Hn].
Qed.
Lemma at_enum t u n : at_tag t (f_enum u n) = if u =? t then map snd (f_enum u n) else [].
Proof.
  destruct (N.eqb_spec u t) as [->|Hn]; [now apply at_tag_all; auto with tags|].
  eapply at_tag_other; [apply all_enum|exact Hn].
Qed.
Lemma at_bool t u n : at_tag t (f_bool u n) = if u =? t then map snd (f_bool u n) else [].
Proof.
  destruct (N.eqb_spec u t) as [->|Hn]; [now apply at_tag_all; auto with tags|].
  eapply at_tag_other; [apply all_bool|exact Hn].
Qed.
Lemma at_bytes t u n : at_tag t (f_bytes u n) = if u =? t then map snd (f_bytes u n) else [].
Proof.
  destruct (N.eqb_spec u t) as [->|Hn]; [now apply at_tag_all; auto with tags|].
  eapply at_tag_other; [apply all_bytes|exact Hn].
Qed.
Lemma at_opt_bytes t u n : at_tag t (f_opt_bytes u n) = if u =? t then map snd (f_opt_bytes u n) else [].
Proof.
  destruct (N.eqb_spec u t) as [->|Hn]; [now apply at_tag_all; auto with tags|].
  eapply at_tag_other; [apply all_opt_bytes|exact Hn].
Qed.
Lemma at_opt_u64 t u n : at_tag t (f_opt_u64 u n) = if u =? t then map snd (f_opt_u64 u n) else [].
Proof.
  destruct (N.eqb_spec u t) as [->|Hn]; [now apply at_tag_all; auto with tags|].
  eapply at_tag_other; [apply all_opt_u64|exact Hn].
Qed.
Lemma at_opt_enum t u n : at_tag t (f_opt_enum u n) = if u =? t then map snd (f_opt_enum u n) else [].
Proof.
  destruct (N.eqb_spec u t) as [->|Hn]; [now apply at_tag_all; auto with tags|].
  eapply at_tag_other; [apply all_opt_enum|exact Hn].
Qed.
Lemma at_rep_bytes t u n : at_tag t (f_rep_bytes u n) = if u =? t then map snd (f_rep_bytes u n) else [].
Proof.
  destruct (N.eqb_spec u t) as [->|Hn]; [now apply at_tag_all; auto with tags|].
  eapply at_tag_other; [apply all_rep_bytes|exact Hn].
Qed.
Lemma at_metadata t u n : at_tag t (f_metadata u n) = if u =? t then map snd (f_metadata u n) else [].
Proof.
  destruct (N.eqb_spec u t) as [->|Hn]; [now apply at_tag_all; auto with tags|].
  eapply at_tag_other; [apply all_metadata|exact Hn].
Qed.

Global Hint Rewrite at_u64 at_enum at_bool at_bytes at_opt_bytes at_opt_u64 at_opt_enum at_rep_bytes at_metadata
  at_tag_app : tags.

Definition message_fields (m : message) : list (N * wire) :=
  match m with
  | MRequest b => request_fields b
  | MBid b => bid_fields b
  | MSettle b => settle_fields b
  | MExecute b => execute_fields b
  | MFulfill b => fulfill_fields b
  | MDelegation b => delegation_fields b
  | MTransfer b => transfer_fields b
  | MWithdraw b => withdraw_fields b
  end.

Lemma message_fields_ok m : typed_message m -> Forall field_ok (message_fields m).
Proof.
  destruct m; cbn [typed_message message_fields];
    unfold typed_request, typed_bid, typed_settle, typed_execute, typed_fulfill, typed_delegation,
      typed_transfer, typed_withdraw, request_fields, bid_fields, settle_fields, execute_fields,
      fulfill_fields, delegation_fields, transfer_fields, withdraw_fields;
    intros Hb; decompose [and] Hb; clear Hb;
    repeat (apply Forall_app; split);
    (apply ok_u64 || apply ok_enum || apply ok_bool || apply ok_bytes || apply ok_opt_bytes ||
     apply ok_opt_u64 || apply ok_opt_enum || apply ok_rep_bytes || apply ok_metadata);
    assumption || (now vm_compute).
Qed.

(** The fields of a message with a given tag. *)
Ltac tag t H K :=
  pose proof (f_equal (at_tag t) H) as K;
  autorewrite with tags in K; cbn [N.eqb Pos.eqb app] in K; rewrite ?app_nil_r in K.

(** What the fields say about the type of the message. *)
Definition shown_role (fs : list (N * wire)) : option N :=
  match at_tag 12 fs, at_tag 10 fs, at_tag 5 fs, at_tag 6 fs with
  | _ :: _, _, _, _ => Some 0
  | [], _ :: _, _, _ => Some 3
  | [], [], [WVarint n], _ => Some n
  | [], [], _, [WVarint n] => Some n
  | _, _, _, _ => None
  end.

Ltac tags := autorewrite with tags; cbn [N.eqb Pos.eqb app]; rewrite ?app_nil_r.

Lemma shown_role_spec m : fits_role m -> shown_role (message_fields m) = Some (Z.to_N (own_variant m)).
Proof.
  intros [Hv Hd]. unfold shown_role.
  destruct m as [b|b|b|b|b|b|b|b]; cbn [message_fields message_variant message_domain own_variant] in *;
    unfold request_fields, bid_fields, settle_fields, execute_fields,
      fulfill_fields, delegation_fields, transfer_fields, withdraw_fields; tags; try rewrite Hv; cbn; try reflexivity.
  - destruct (rb_domain b); [discriminate|reflexivity].
  - destruct (bb_prover b); reflexivity.
  - destruct (fb_domain b); reflexivity.
Qed.

Ltac field t H :=
  let K := fresh "K" in
  pose proof (f_equal (at_tag t) H) as K;
  autorewrite with tags in K; cbn [N.eqb Pos.eqb app] in K; rewrite ?app_nil_r in K;
  (apply inj_u64 in K || apply inj_enum in K || apply inj_bool in K || apply inj_bytes in K ||
   apply inj_opt_bytes in K || apply inj_opt_u64 in K || apply inj_opt_enum in K || apply inj_rep_bytes in K ||
   apply inj_metadata in K); [|try assumption..].

Lemma withdraw_fields_inj b b' : typed_withdraw b -> typed_withdraw b' ->
  withdraw_fields b = withdraw_fields b' -> b = b'.
Proof.
  intros Hb Hb' H. unfold typed_withdraw in *. decompose [and] Hb. decompose [and] Hb'. clear Hb Hb'.
  unfold withdraw_fields in H.
  field 1 H. field 2 H. field 3 H. field 4 H. field 5 H. field 6 H. field 7 H.
  clear H. destruct b, b'. cbn in * |-. f_equal; assumption.
Qed.

Lemma transfer_fields_inj b b' : typed_transfer b -> typed_transfer b' ->
  transfer_fields b = transfer_fields b' -> b = b'.
Proof.
  intros Hb Hb' H. unfold typed_transfer in *. decompose [and] Hb. decompose [and] Hb'. clear Hb Hb'.
  unfold transfer_fields in H.
  field 1 H. field 2 H. field 3 H. field 4 H. field 5 H. field 6 H. field 7 H.
  clear H. destruct b, b'. cbn in * |-. f_equal; assumption.
Qed.

Lemma delegation_fields_inj b b' : typed_delegation b -> typed_delegation b' ->
  delegation_fields b = delegation_fields b' -> b = b'.
Proof.
  intros Hb Hb' H. unfold typed_delegation in *. decompose [and] Hb. decompose [and] Hb'. clear Hb Hb'.
  unfold delegation_fields in H.
  field 1 H. field 2 H. field 3 H. field 4 H. field 5 H. field 6 H. field 7 H.
  clear H. destruct b, b'. cbn in * |-. f_equal; assumption.
Qed.

Lemma request_fields_inj b b' : typed_request b -> typed_request b' ->
  request_fields b = request_fields b' -> b = b'.
Proof.
  intros Hb Hb' H. unfold typed_request in *. decompose [and] Hb. decompose [and] Hb'. clear Hb Hb'.
  unfold request_fields in H.
  field 1 H. field 2 H. field 3 H. field 4 H. field 5 H. field 6 H. field 7 H. field 8 H. field 9 H. field 10 H. field 11 H. field 12 H. 
  field 13 H. field 14 H. field 15 H. field 16 H. field 17 H. field 18 H. field 19 H. field 20 H. field 21 H.
  clear H. destruct b, b'. cbn in * |-. f_equal; assumption.
Qed.

Lemma bid_fields_inj b b' : typed_bid b -> typed_bid b' ->
  bid_fields b = bid_fields b' -> b = b'.
Proof.
  intros Hb Hb' H. unfold typed_bid in *. decompose [and] Hb. decompose [and] Hb'. clear Hb Hb'.
  unfold bid_fields in H.
  field 1 H. field 2 H. field 3 H. field 4 H. field 5 H. field 6 H.
  clear H. destruct b, b'. cbn in * |-. f_equal; assumption.
Qed.

Lemma settle_fields_inj b b' : typed_settle b -> typed_settle b' ->
  settle_fields b = settle_fields b' -> b = b'.
Proof.
  intros Hb Hb' H. unfold typed_settle in *. decompose [and] Hb. decompose [and] Hb'. clear Hb Hb'.
  unfold settle_fields in H.
  field 1 H. field 2 H. field 3 H. field 4 H. field 5 H.
  clear H. destruct b, b'. cbn in * |-. f_equal; assumption.
Qed.

Lemma execute_fields_inj b b' : typed_execute b -> typed_execute b' ->
  execute_fields b = execute_fields b' -> b = b'.
Proof.
  intros Hb Hb' H. unfold typed_execute in *. decompose [and] Hb. decompose [and] Hb'. clear Hb Hb'.
  unfold execute_fields in H.
  field 1 H. field 2 H. field 3 H. field 4 H. field 5 H. field 6 H. field 7 H. field 8 H. field 9 H. field 10 H.
  clear H. destruct b, b'. cbn in * |-. f_equal; assumption.
Qed.

Lemma fulfill_fields_inj b b' : typed_fulfill b -> typed_fulfill b' ->
  fulfill_fields b = fulfill_fields b' -> b = b'.
Proof.
  intros Hb Hb' H. unfold typed_fulfill in *. decompose [and] Hb. decompose [and] Hb'. clear Hb Hb'.
  unfold fulfill_fields in H.
  field 1 H. field 2 H. field 3 H. field 4 H. field 5 H. field 6 H.
  clear H. destruct b, b'. cbn in * |-. f_equal; assumption.
Qed.

Lemma encode_message_fields m : encode_message m = encode_fields (message_fields m).
Proof. now destruct m. Qed.

Lemma encode_message_same m m' : typed_message m -> typed_message m' ->
  own_variant m = own_variant m' -> encode_message m = encode_message m' -> m = m'.
Proof.
  intros Hm Hm' Hv H. rewrite !encode_message_fields in H.
  apply encode_fields_inj in H; [|now apply message_fields_ok..].
  destruct m, m'; try discriminate Hv; cbn [message_fields typed_message] in *; f_equal.
  - now apply request_fields_inj.
  - now apply bid_fields_inj.
  - now apply settle_fields_inj.
  - now apply execute_fields_inj.
  - now apply fulfill_fields_inj.
  - now apply delegation_fields_inj.
  - now apply transfer_fields_inj.
  - now apply withdraw_fields_inj.
Qed.

Lemma encode_message_inj m m' : typed_message m -> typed_message m' -> fits_role m -> fits_role m' ->
  encode_message m = encode_message m' -> m = m'.
Proof.
  intros Hm Hm' Hf Hf' H. apply encode_message_same; try assumption.
  rewrite !encode_message_fields in H. apply encode_fields_inj in H; [|now apply message_fields_ok..].
  apply shown_role_spec in Hf, Hf'. rewrite H, Hf' in Hf.
  destruct m, m'; cbn in Hf; try reflexivity; discriminate.
Qed.

Lemma encode_field_len t bs : (length bs + 2 <= length (encode_field (t, WLen bs)))%nat.
Proof.
  cbn [encode_field]. rewrite !app_length.
  pose proof (varint_nonempty (t * 8 + 2)). pose proof (varint_nonempty (N.of_nat (length bs))).
  destruct (varint (t * 8 + 2)); [contradiction|]. destruct (varint (N.of_nat (length bs))); [contradiction|].
  cbn [length]. lia.
Qed.

Lemma encode_fields_len fs t bs :
  (t, WLen bs) ∈ fs -> (length bs + 2 <= length (encode_fields fs))%nat.
Proof.
  unfold encode_fields. induction fs as [|f fs IH]; intros H; [now apply elem_of_nil in H|].
  cbn [map concat]. rewrite app_length. apply elem_of_cons in H as [<-|H].
  - pose proof (encode_field_len t bs). lia.
  - specialize (IH H). lia.
Qed.

Lemma f_bytes_elem t bs : bs <> [] -> (t, WLen bs) ∈ f_bytes t bs.
Proof. destruct bs; [contradiction|]. intros _. left. Qed.

Lemma encode_message_long m : fits_role m -> (34 <= length (encode_message m))%nat.
Proof.
  intros [_ Hd]. rewrite encode_message_fields.
  change 34%nat with (32 + 2)%nat. rewrite <- Hd.
  assert (Hne : message_domain m <> []) by (intros Hn; rewrite Hn in Hd; discriminate).
  clear Hd. destruct m as [b|b|b|b|b|b|b|b]; cbn [message_fields message_domain] in *.
  - apply (encode_fields_len _ 12). unfold request_fields. rewrite !elem_of_app.
    do 11 right. left. now apply f_bytes_elem.
  - apply (encode_fields_len _ 4). unfold bid_fields. rewrite !elem_of_app.
    do 3 right. left. now apply f_bytes_elem.
  - apply (encode_fields_len _ 4). unfold settle_fields. rewrite !elem_of_app.
    do 3 right. left. now apply f_bytes_elem.
  - apply (encode_fields_len _ 7). unfold execute_fields. rewrite !elem_of_app.
    do 6 right. left. now apply f_bytes_elem.
  - apply (encode_fields_len _ 5). unfold fulfill_fields. rewrite !elem_of_app.
    do 4 right. left. now apply f_bytes_elem.
  - apply (encode_fields_len _ 4). unfold delegation_fields. rewrite !elem_of_app.
    do 3 right. left. now apply f_bytes_elem.
  - apply (encode_fields_len _ 4). unfold transfer_fields. rewrite !elem_of_app.
    do 3 right. left. now apply f_bytes_elem.
  - apply (encode_fields_len _ 4). unfold withdraw_fields. rewrite !elem_of_app.
    do 3 right. left. now apply f_bytes_elem.
Qed.
