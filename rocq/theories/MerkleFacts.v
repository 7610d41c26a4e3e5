(** Facts about the Merkle storage: the layered root computation, the cached proofs and the incremental
    root all agree with the textbook tree. *)
From Verif Require Export MerkleSpec.
From Coq Require Import ZifyBool ZifyN ZifyNat.
Open Scope N_scope.

(** ** Bits *)

Lemma shiftr_1 i : N.shiftr i 1 = i / 2.
Proof. now rewrite N.shiftr_div_pow2. Qed.

Lemma land_1 i : (N.land i 1 =? 0) = N.even i.
Proof. destruct i as [|[p|p|]]; reflexivity. Qed.

Lemma lor_1 i : N.even i = true -> N.lor i 1 = i + 1.
Proof. destruct i as [|[p|p|]]; cbn; intros; try discriminate; reflexivity. Qed.

Lemma ldiff_1 i : N.even i = false -> N.ldiff i 1 = i - 1.
Proof. destruct i as [|[p|p|]]; cbn; intros; try discriminate; reflexivity. Qed.

Definition sibling (i : N) : N := if N.even i then i + 1 else i - 1.

Lemma lxor_1 i : N.lxor i 1 = sibling i.
Proof. destruct i as [|[p|p|]]; reflexivity. Qed.

Lemma even_spec i : if N.even i then i = 2 * (i / 2) else i = 2 * (i / 2) + 1.
Proof.
  pose proof (N.div_mod i 2). pose proof (N.mod_lt i 2).
  pose proof (N.even_spec i) as He. destruct (N.even i).
  - destruct (proj1 He eq_refl) as [k ->]. rewrite N.mul_comm, N.div_mul; lia.
  - assert (i mod 2 <> 0); [|lia].
    intros Hm. enough (false = true) by discriminate. apply He. exists (i / 2). lia.
Qed.

Lemma sibling_ne i : sibling i <> i.
Proof. unfold sibling. pose proof (even_spec i). destruct (N.even i); lia. Qed.

Lemma sibling_div i : sibling i / 2 = i / 2.
Proof.
  unfold sibling. pose proof (even_spec i). symmetry. destruct (N.even i);
    [apply (N.div_unique _ _ _ 1)|apply (N.div_unique _ _ _ 0)]; lia.
Qed.

Lemma div2_cases i j : j / 2 = i / 2 -> j = i \/ j = sibling i.
Proof.
  unfold sibling. pose proof (even_spec i) as Hi. pose proof (even_spec j) as Hj. intros H.
  rewrite H in Hj. destruct (N.even i), (N.even j); [left|right|right|left]; lia.
Qed.

Lemma shl256_small i n : i * 2 ^ N.of_nat n < two256 -> shl256 i n = i * 2 ^ N.of_nat n.
Proof. intros H. unfold shl256. rewrite N.shiftl_mul_pow2. now apply N.mod_small. Qed.

Lemma lor_double i : N.lor (2 * i) 1 = 2 * i + 1.
Proof. destruct i; reflexivity. Qed.

Lemma pow2_S n : 2 ^ N.of_nat (S n) = 2 * 2 ^ N.of_nat n.
Proof. rewrite Nnat.Nat2N.inj_succ. apply N.pow_succ_r'. Qed.

Lemma pow2_pos n : 1 <= 2 ^ N.of_nat n.
Proof. pose proof (N.pow_nonzero 2 (N.of_nat n)). lia. Qed.

Lemma div_pow2_S j n : j / 2 ^ N.of_nat (S n) = j / 2 ^ N.of_nat n / 2.
Proof.
  pose proof (pow2_pos n). rewrite pow2_S, (N.mul_comm 2), N.div_div by lia. reflexivity.
Qed.

Lemma div_pow2_iff j n i :
  j / 2 ^ N.of_nat n = i <-> i * 2 ^ N.of_nat n <= j < (i + 1) * 2 ^ N.of_nat n.
Proof.
  pose proof (pow2_pos n). split.
  - intros <-. pose proof (N.div_mod j (2 ^ N.of_nat n)). pose proof (N.mod_lt j (2 ^ N.of_nat n)). nia.
  - intros [Hl Hh]. symmetry.
    apply (N.div_unique _ _ _ (j - i * 2 ^ N.of_nat n)); nia.
Qed.

Section merkle_facts.
  Context {V : Type} (cfg : tree_cfg V).
  Implicit Types m : gmap N V.

  (** ** The textbook tree *)

  (** The hash of an empty subtree of a height. *)
  Fixpoint zero_hash (h : nat) : N :=
    match h with O => 0 | S h' => tc_pair cfg (zero_hash h') (zero_hash h') end.

  Lemma zero_hashes_from_nth n z k h :
    (h <= n)%nat -> z = zero_hash k -> nth h (zero_hashes_from cfg n z) 0 = zero_hash (k + h).
  Proof.
    revert z k h. induction n as [|n IH]; intros z k h Hh Hz.
    - replace h with 0%nat by lia. rewrite Nat.add_0_r. now cbn.
    - destruct h as [|h]; cbn.
      + now rewrite Nat.add_0_r.
      + rewrite (IH _ (S k)); [f_equal; lia|lia|]. cbn. now rewrite Hz.
  Qed.

  Lemma zero_at_spec h : (h <= tc_bits cfg)%nat -> zero_at (compute_zero_hashes cfg) h = zero_hash h.
  Proof. intros Hh. unfold zero_at, compute_zero_hashes. now apply (zero_hashes_from_nth _ _ 0%nat). Qed.

  Lemma tree_hash_ext m1 m2 h i :
    (forall j, j / 2 ^ N.of_nat h = i -> m1 !! j = m2 !! j) ->
    tree_hash cfg m1 h i = tree_hash cfg m2 h i.
  Proof.
    revert i. induction h as [|h IH]; intros i H; cbn [tree_hash].
    - rewrite H; [reflexivity|]. cbn. apply N.div_1_r.
    - f_equal; apply IH; intros j Hj; apply H; rewrite div_pow2_S, Hj.
      + rewrite N.mul_comm. now apply N.div_mul.
      + symmetry. apply (N.div_unique _ _ _ 1); lia.
  Qed.

  Definition empty_below m (h : nat) (i : N) : Prop :=
    forall j, j / 2 ^ N.of_nat h = i -> m !! j = None.

  Lemma tree_hash_empty m h i : empty_below m h i -> tree_hash cfg m h i = zero_hash h.
  Proof.
    intros H. rewrite (tree_hash_ext m ∅).
    - clear. revert i. induction h as [|h IH]; intros i; cbn; [reflexivity|]. now rewrite !IH.
    - intros j Hj. rewrite lookup_empty. now apply H.
  Qed.

  (** ** The layered root *)

  (** What a layer must contain at a parent. *)
  Definition parent_hash (z : N) (cur : gmap N N) (p : N) : N :=
    tc_pair cfg (default z (cur !! (2 * p))) (default z (cur !! (2 * p + 1))).

  Lemma root_visit_spec z cur next i h :
    cur !! i = Some h ->
    (forall p x, next !! p = Some x -> x = parent_hash z cur p) ->
    root_visit cfg z cur next (i, h) = <[i / 2 := parent_hash z cur (i / 2)]> next.
  Proof.
    intros Hi Hn. unfold root_visit. rewrite shiftr_1, land_1.
    pose proof (even_spec i) as He. f_equal.
    destruct (N.even i) eqn:Hev.
    - rewrite lor_1 by exact Hev.
      destruct (cur !! (i + 1)) as [sb|] eqn:Hs.
      + unfold parent_hash. rewrite <- He, Hi, Hs. reflexivity.
      + destruct (next !! (i / 2)) as [x|] eqn:Hx; [now apply Hn|].
        unfold parent_hash. rewrite <- He, Hi, Hs. reflexivity.
    - rewrite ldiff_1 by exact Hev. replace (i - 1) with (2 * (i / 2)) by lia.
      destruct (cur !! (2 * (i / 2))) as [sb|] eqn:Hs.
      + unfold parent_hash. rewrite <- He, Hi, Hs. reflexivity.
      + destruct (next !! (i / 2)) as [x|] eqn:Hx; [now apply Hn|].
        unfold parent_hash. rewrite <- He, Hi, Hs. reflexivity.
  Qed.

  Lemma root_layer_fold z cur l next :
    (forall i h, (i, h) ∈ l -> cur !! i = Some h) ->
    (forall p x, next !! p = Some x -> x = parent_hash z cur p) ->
    let r := fold_left (root_visit cfg z cur) l next in
    (forall p x, r !! p = Some x -> x = parent_hash z cur p) /\
    (forall p, is_Some (r !! p) <-> is_Some (next !! p) \/ exists i h, (i, h) ∈ l /\ i / 2 = p).
  Proof.
    revert next. induction l as [|[i h] l IH]; intros next Hl Hn; cbn zeta; cbn [fold_left].
    - split; [exact Hn|]. intros p. split; [now left|].
      intros [H|(i & h & H & _)]; [exact H|]. now apply elem_of_nil in H.
    - rewrite root_visit_spec; [|apply Hl; left|exact Hn].
      destruct (IH (<[i / 2 := parent_hash z cur (i / 2)]> next)) as [H1 H2].
      + intros i' h' H'. apply Hl. now right.
      + intros p x Hx. destruct (decide (i / 2 = p)) as [<-|Hne].
        * rewrite lookup_insert in Hx. congruence.
        * rewrite lookup_insert_ne in Hx by exact Hne. now apply Hn.
      + split; [exact H1|]. intros p. rewrite H2. split.
        * intros [Hs|(i' & h' & Hin & Hp)].
          -- destruct (decide (i / 2 = p)) as [Hp|Hne].
             ++ right. exists i, h. split; [left|exact Hp].
             ++ rewrite lookup_insert_ne in Hs by exact Hne. now left.
          -- right. exists i', h'. split; [now right|exact Hp].
        * intros [Hs|(i' & h' & Hin & Hp)].
          -- left. destruct (decide (i / 2 = p)) as [<-|Hne]; [rewrite lookup_insert; eauto|].
             now rewrite lookup_insert_ne.
          -- apply elem_of_cons in Hin as [Heq|Hin].
             ++ injection Heq as -> ->. left. rewrite Hp, lookup_insert. eauto.
             ++ right. eauto.
  Qed.

  Lemma btree_iter_elem {W} (mm : gmap N W) i x : (i, x) ∈ btree_iter mm <-> mm !! i = Some x.
  Proof.
    unfold btree_iter. rewrite <- elem_of_map_to_list.
    assert (Hp : Permutation (merge_sort key_le (map_to_list mm)) (map_to_list mm))
      by apply merge_sort_Permutation.
    now rewrite Hp.
  Qed.

  Lemma root_layer_spec z cur p :
    root_layer cfg z cur !! p =
    if decide (is_Some (cur !! (2 * p)) \/ is_Some (cur !! (2 * p + 1)))
    then Some (parent_hash z cur p) else None.
  Proof.
    destruct (root_layer_fold z cur (btree_iter cur) ∅) as [H1 H2].
    - intros i h. apply btree_iter_elem.
    - intros q x. rewrite lookup_empty. discriminate.
    - unfold root_layer.
      set (r := fold_left (root_visit cfg z cur) (btree_iter cur) ∅) in *.
      assert (Hiff : is_Some (r !! p) <-> is_Some (cur !! (2 * p)) \/ is_Some (cur !! (2 * p + 1))).
      { rewrite H2. rewrite lookup_empty. split.
        - intros [Hs|(i & h & Hin & Hp)]; [destruct Hs; discriminate|].
          apply btree_iter_elem in Hin. pose proof (even_spec i) as He. rewrite Hp in He.
          destruct (N.even i); rewrite <- He; eauto.
        - intros [[x Hx]|[x Hx]]; right.
          + exists (2 * p), x. rewrite btree_iter_elem. split; [exact Hx|].
            rewrite N.mul_comm. now apply N.div_mul.
          + exists (2 * p + 1), x. rewrite btree_iter_elem. split; [exact Hx|].
            symmetry. apply (N.div_unique _ _ _ 1); lia. }
      destruct (r !! p) as [x|] eqn:Hr.
      + rewrite decide_True by (apply Hiff; eauto). f_equal. now apply H1.
      + rewrite decide_False; [reflexivity|]. intros H. apply Hiff in H as [x Hx]. discriminate.
  Qed.

  (** A layer holds exactly the nodes with something below them. *)
  Definition layer_ok m (h : nat) (cur : gmap N N) : Prop :=
    forall i, match cur !! i with
              | Some x => x = tree_hash cfg m h i /\ ~ empty_below m h i
              | None => empty_below m h i
              end.

  Lemma empty_below_S m h i :
    empty_below m (S h) i <-> empty_below m h (2 * i) /\ empty_below m h (2 * i + 1).
  Proof.
    unfold empty_below. split.
    - intros H. split; intros j Hj; apply H; rewrite div_pow2_S, Hj.
      + rewrite N.mul_comm. now apply N.div_mul.
      + symmetry. apply (N.div_unique _ _ _ 1); lia.
    - intros [H1 H2] j Hj. rewrite div_pow2_S in Hj.
      pose proof (even_spec (j / 2 ^ N.of_nat h)) as He. rewrite Hj in He.
      destruct (N.even _); [now apply H1|now apply H2].
  Qed.

  Lemma layer_default m h cur z i :
    layer_ok m h cur -> z = zero_hash h -> default z (cur !! i) = tree_hash cfg m h i.
  Proof.
    intros Hl ->. specialize (Hl i). destruct (cur !! i); cbn.
    - now destruct Hl.
    - symmetry. now apply tree_hash_empty.
  Qed.

  Lemma root_layer_ok m h cur z :
    layer_ok m h cur -> z = zero_hash h -> layer_ok m (S h) (root_layer cfg z cur).
  Proof.
    intros Hl Hz i. rewrite root_layer_spec.
    pose proof (Hl (2 * i)) as Ha. pose proof (Hl (2 * i + 1)) as Hb.
    destruct (decide _) as [H|H].
    - split.
      + unfold parent_hash. now rewrite !(layer_default m h cur z).
      + rewrite empty_below_S. intros [Ea Eb].
        destruct H as [[x Hx]|[x Hx]]; rewrite Hx in *; tauto.
    - rewrite empty_below_S.
      destruct (cur !! (2 * i)) eqn:E1; [exfalso; apply H; left; eauto|].
      destruct (cur !! (2 * i + 1)) eqn:E2; [exfalso; apply H; right; eauto|].
      now split.
  Qed.

  Lemma root_layers_ok m n : forall h cur,
    (h + n <= tc_bits cfg)%nat -> layer_ok m h cur ->
    layer_ok m (h + n) (root_layers cfg (compute_zero_hashes cfg) n h cur).
  Proof.
    induction n as [|n IH]; intros h cur Hh Hl; cbn [root_layers].
    - now rewrite Nat.add_0_r.
    - replace (h + S n)%nat with (S h + n)%nat by lia. apply IH; [lia|].
      apply root_layer_ok; [exact Hl|]. apply zero_at_spec. lia.
  Qed.

  Lemma layer0_ok m : layer_ok m 0 (tc_hash cfg <$> m).
  Proof.
    intros i. rewrite lookup_fmap. destruct (m !! i) as [v|] eqn:Hv; cbn; rewrite ?Hv.
    - split; [reflexivity|]. intros He. rewrite He in Hv; [discriminate|]. cbn. apply N.div_1_r.
    - intros j Hj. cbn in Hj. rewrite N.div_1_r in Hj. congruence.
  Qed.

  Theorem merkle_root_spec t :
    mk_zero_hashes t = compute_zero_hashes cfg ->
    merkle_root cfg t = tree_root cfg (mk_leaves t).
  Proof.
    intros Hz. unfold merkle_root, tree_root. rewrite Hz.
    destruct (bool_decide_reflect (mk_leaves t = ∅)) as [He|Hne].
    - rewrite zero_at_spec by lia. symmetry. apply tree_hash_empty.
      intros j _. rewrite He. apply lookup_empty.
    - rewrite zero_at_spec by lia.
      eapply layer_default; [|reflexivity].
      apply (root_layers_ok (mk_leaves t) (tc_bits cfg) 0); [lia|]. apply layer0_ok.
  Qed.

  (** ** Proofs and the node cache *)

  Definition room (h : nat) (i : N) : Prop := (i + 1) * 2 ^ N.of_nat h <= two256.

  Definition cache_ok m (c : gmap (nat * N) N) : Prop :=
    forall h i x, c !! (h, i) = Some x -> room h i -> x = tree_hash cfg m h i.

  Lemma is_subtree_empty_sound m h i :
    (h < 256)%nat -> room h i -> is_subtree_empty m h i = true -> empty_below m h i.
  Proof.
    unfold room. intros Hh Hr H j Hj. apply div_pow2_iff in Hj.
    pose proof (pow2_pos h) as Hp.
    assert (H1 : shl256 1 h = 2 ^ N.of_nat h).
    { rewrite shl256_small; [lia|]. rewrite N.mul_1_l.
      change two256 with (2 ^ N.of_nat 256). apply N.pow_lt_mono_r; lia. }
    unfold is_subtree_empty in H. rewrite H1 in H. rewrite shl256_small in H by nia.
    destruct (m !! j) as [v|] eqn:Hv; [exfalso|reflexivity].
    apply elem_of_map_to_list, elem_of_list_In in Hv.
    destruct (N.eqb_spec ((i * 2 ^ N.of_nat h + 2 ^ N.of_nat h) mod two256) 0) as [E|E];
      rewrite forallb_forall in H; apply H in Hv; cbn in Hv; [lia|].
    destruct (N.eq_dec (i * 2 ^ N.of_nat h + 2 ^ N.of_nat h) two256) as [Ee|Ee].
    - rewrite Ee, N.mod_same in E by discriminate. congruence.
    - rewrite N.mod_small in Hv by nia. nia.
  Qed.

  Lemma cache_ok_insert m c h i x :
    cache_ok m c -> x = tree_hash cfg m h i -> cache_ok m (<[(h, i) := x]> c).
  Proof.
    intros Hc Hx h' i' x' Hl Hr. destruct (decide ((h, i) = (h', i'))) as [Heq|Hne].
    - rewrite Heq, lookup_insert in Hl. congruence.
    - rewrite lookup_insert_ne in Hl by exact Hne. now apply Hc.
  Qed.

  Lemma compute_node_spec m zh : zh = compute_zero_hashes cfg -> forall h i c,
    (h <= tc_bits cfg)%nat -> (h < 256)%nat -> room h i -> cache_ok m c ->
    (compute_node cfg m zh h i c).1 = tree_hash cfg m h i /\
    cache_ok m (compute_node cfg m zh h i c).2.
  Proof.
    intros ->. induction h as [|h IH]; intros i c Hb Hh Hr Hc; cbn [compute_node].
    - split; [|exact Hc]. cbn [fst snd tree_hash]. unfold leaf_hash. destruct (m !! i); [reflexivity|].
      now rewrite zero_at_spec by lia.
    - destruct (c !! (S h, i)) as [x|] eqn:Hx.
      + split; [|exact Hc]. cbn [fst snd]. exact (Hc _ _ _ Hx Hr).
      + destruct (is_subtree_empty m (S h) i) eqn:He.
        * split; [|exact Hc]. cbn [fst snd]. rewrite zero_at_spec by lia.
          symmetry. apply tree_hash_empty. now apply is_subtree_empty_sound.
        * unfold room in *. rewrite pow2_S in Hr. pose proof (pow2_pos h) as Hp.
          assert (Hs : shl256 i 1 = 2 * i).
          { rewrite shl256_small; change (2 ^ N.of_nat 1) with 2; nia. }
          rewrite Hs, lor_double.
          destruct (IH (2 * i) c) as [Ha Hca]; [lia|lia|nia|exact Hc|].
          destruct (compute_node cfg m _ h (2 * i) c) as [lh c1]. cbn [fst snd] in *.
          destruct (IH (2 * i + 1) c1) as [Hb' Hcb]; [lia|lia|nia|exact Hca|].
          destruct (compute_node cfg m _ h (2 * i + 1) c1) as [rh c2]. cbn [fst snd] in *.
          subst lh rh. cbn [tree_hash]. split; [reflexivity|].
          destruct (_ <=? _)%nat; [|exact Hcb]. now apply cache_ok_insert.
  Qed.

  Lemma sibling_hash_spec m h i c :
    (h <= tc_bits cfg)%nat -> (h < 256)%nat -> room h i -> cache_ok m c ->
    (sibling_hash cfg m (compute_zero_hashes cfg) h i c).1 = tree_hash cfg m h i /\
    cache_ok m (sibling_hash cfg m (compute_zero_hashes cfg) h i c).2.
  Proof.
    intros Hb Hh Hr Hc. destruct h as [|h]; unfold sibling_hash.
    - apply (compute_node_spec m _ eq_refl 0%nat i c); assumption.
    - destruct (c !! (S h, i)) as [x|] eqn:Hx; [split; [exact (Hc _ _ _ Hx Hr)|exact Hc]|].
      destruct (is_subtree_empty m (S h) i) eqn:He.
      + split; [|exact Hc]. cbn [fst snd]. rewrite zero_at_spec by lia.
        symmetry. apply tree_hash_empty. now apply is_subtree_empty_sound.
      + now apply compute_node_spec.
  Qed.

  Lemma siblings_cons m n h i :
    siblings cfg m (S n) h i = tree_hash cfg m h (sibling i) :: siblings cfg m n (S h) (i / 2).
  Proof. reflexivity. Qed.

  Lemma proof_path_spec m n : forall h i c,
    (h + n <= 256)%nat -> (h + n = tc_bits cfg)%nat -> i < 2 ^ N.of_nat n -> cache_ok m c ->
    (proof_path cfg m (compute_zero_hashes cfg) n h i c).1 = siblings cfg m n h i /\
    cache_ok m (proof_path cfg m (compute_zero_hashes cfg) n h i c).2.
  Proof.
    induction n as [|n IH]; intros h i c Hb Hn Hi Hc; cbn [proof_path].
    - now split.
    - rewrite lxor_1, shiftr_1, siblings_cons.
      rewrite pow2_S in Hi.
      assert (Hroom : room h (sibling i)).
      { unfold room.
        assert (Hsz : sibling i + 1 <= 2 ^ N.of_nat (S n)).
        { rewrite pow2_S. unfold sibling. pose proof (even_spec i). destruct (N.even i); lia. }
        assert (2 ^ N.of_nat (S n) * 2 ^ N.of_nat h <= two256).
        { rewrite <- N.pow_add_r. change two256 with (2 ^ 256). apply N.pow_le_mono_r; lia. }
        nia. }
      destruct (sibling_hash_spec m h (sibling i) c) as [Hs Hcs]; [lia|lia|exact Hroom|exact Hc|].
      destruct (sibling_hash cfg m _ h (sibling i) c) as [x c1]. cbn [fst snd] in *. subst x.
      destruct (IH (S h) (i / 2) c1) as [Hp Hcp]; [lia|lia| |exact Hcs|].
      { apply N.div_lt_upper_bound; lia. }
      destruct (proof_path cfg m _ n (S h) (i / 2) c1) as [rest c2]. cbn [fst snd] in *.
      now rewrite Hp.
  Qed.

  (** ** Checking proofs *)

  Lemma fold_path_cons s path i x :
    fold_path cfg (s :: path) i x =
    fold_path cfg path (i / 2) (if N.even i then tc_pair cfg x s else tc_pair cfg s x).
  Proof. cbn [fold_path]. now rewrite land_1, shiftr_1. Qed.

  Lemma tree_hash_parent m h i :
    (if N.even i then tc_pair cfg (tree_hash cfg m h i) (tree_hash cfg m h (sibling i))
     else tc_pair cfg (tree_hash cfg m h (sibling i)) (tree_hash cfg m h i))
    = tree_hash cfg m (S h) (i / 2).
  Proof.
    cbn [tree_hash]. unfold sibling. pose proof (even_spec i) as He.
    destruct (N.even i); f_equal; f_equal; lia.
  Qed.

  Lemma fold_path_siblings m n : forall h i,
    fold_path cfg (siblings cfg m n h i) i (tree_hash cfg m h i)
    = tree_hash cfg m (h + n) (i / 2 ^ N.of_nat n).
  Proof.
    induction n as [|n IH]; intros h i.
    - cbn. now rewrite N.div_1_r, Nat.add_0_r.
    - rewrite siblings_cons, fold_path_cons, tree_hash_parent, IH.
      replace (h + S n)%nat with (S h + n)%nat by lia. f_equal.
      pose proof (pow2_pos n). rewrite pow2_S, N.div_div by lia. reflexivity.
  Qed.

  Lemma siblings_length m n h i : length (siblings cfg m n h i) = n.
  Proof. revert h i. induction n as [|n IH]; intros h i; [reflexivity|]. cbn. now rewrite IH. Qed.

  (** The proof a storage with these contents must give. *)
  Definition true_proof m (k : N) : mproof V :=
    MProof k (m !! tc_index cfg k) (siblings cfg m (tc_bits cfg) 0 (tc_index cfg k)).

  Lemma claimed_hash_spec m i : claimed_hash cfg (m !! i) = tree_hash cfg m 0 i.
  Proof. reflexivity. Qed.

  Lemma fold_path_true m i : in_tree cfg i ->
    fold_path cfg (siblings cfg m (tc_bits cfg) 0 i) i (tree_hash cfg m 0 i) = tree_root cfg m.
  Proof.
    intros Hi. rewrite fold_path_siblings. unfold tree_root. cbn [Nat.add]. f_equal.
    now apply N.div_small.
  Qed.

  Lemma verify_true_proof m k :
    in_tree cfg (tc_index cfg k) -> verify_proof cfg (tree_root cfg m) (true_proof m k) = Ok tt.
  Proof.
    intros Hi. unfold verify_proof, verify_proof_with_hash, true_proof. cbn [mp_path mp_key mp_value].
    rewrite siblings_length, Nat.eqb_refl. cbn [negb].
    rewrite claimed_hash_spec, fold_path_true by exact Hi.
    now rewrite N.eqb_refl.
  Qed.

  (** ** Reachable storages *)

  Record tree_ok (t : merkle V) : Prop := {
    to_zero : mk_zero_hashes t = compute_zero_hashes cfg;
    to_cache : cache_ok (mk_leaves t) (mk_cache t)
  }.

  Lemma cache_ok_empty m : cache_ok m ∅.
  Proof. intros h i x. rewrite lookup_empty. discriminate. Qed.

  Lemma tree_ok_new : tree_ok (merkle_new cfg).
  Proof. split; [reflexivity|]. apply cache_ok_empty. Qed.

  Lemma merkle_proof_spec t k :
    tree_ok t -> (tc_bits cfg <= 256)%nat -> in_tree cfg (tc_index cfg k) ->
    (merkle_proof cfg k t).1 = Ok (true_proof (mk_leaves t) k) /\
    tree_ok (merkle_proof cfg k t).2 /\
    mk_leaves (merkle_proof cfg k t).2 = mk_leaves t.
  Proof.
    intros [Hz Hc] Hb Hi. unfold merkle_proof. rewrite Hz.
    assert (Hoob : ((tc_bits cfg <? 256)%nat &&
        (N.shiftl 1 (N.of_nat (tc_bits cfg)) <=? tc_index cfg k)) = false).
    { apply andb_false_iff. right. rewrite N.shiftl_mul_pow2, N.mul_1_l. unfold in_tree in Hi. lia. }
    rewrite Hoob.
    destruct (proof_path_spec (mk_leaves t) (tc_bits cfg) 0 (tc_index cfg k) (mk_cache t))
      as [Hp Hcp]; [lia|lia|exact Hi|exact Hc|].
    destruct (proof_path _ _ _ _ _ _ _) as [path c]. cbn [fst snd] in *. subst path.
    split; [reflexivity|]. split; [|reflexivity]. now split.
  Qed.

  Lemma merkle_proof_out t k :
    (tc_bits cfg < 256)%nat -> ~ in_tree cfg (tc_index cfg k) ->
    merkle_proof cfg k t = (Err IndexOutOfBounds, t).
  Proof.
    intros Hb Hi. unfold merkle_proof.
    assert (Hoob : ((tc_bits cfg <? 256)%nat &&
        (N.shiftl 1 (N.of_nat (tc_bits cfg)) <=? tc_index cfg k)) = true).
    { apply andb_true_iff. split; [lia|].
      rewrite N.shiftl_mul_pow2, N.mul_1_l. unfold in_tree in Hi. lia. }
    now rewrite Hoob.
  Qed.

  Lemma merkle_proof_ok t k :
    tree_ok t -> (tc_bits cfg <= 256)%nat -> tc_index cfg k < two256 ->
    tree_ok (merkle_proof cfg k t).2.
  Proof.
    intros Ht Hb Hk. destruct (N.lt_ge_cases (tc_index cfg k) (2 ^ N.of_nat (tc_bits cfg))) as [Hi|Hi].
    - now apply merkle_proof_spec.
    - destruct (Nat.eq_dec (tc_bits cfg) 256) as [E|E].
      + exfalso. rewrite E in Hi. change (2 ^ N.of_nat 256) with two256 in Hi. lia.
      + rewrite merkle_proof_out; [exact Ht|lia|]. unfold in_tree. lia.
  Qed.

  Lemma do_op_ok t op :
    (tc_bits cfg <= 256)%nat -> (forall k, op_key op = Some k -> tc_index cfg k < two256) ->
    tree_ok t -> tree_ok (do_op cfg t op).
  Proof.
    intros Hb Hk Ht. pose proof Ht as [Hz Hc]. destruct op; cbn [do_op];
      try (split; [exact Hz|first [exact Hc|apply cache_ok_empty]]).
    - unfold merkle_get_mut. destruct (mk_leaves t !! tc_index cfg k);
        (split; [exact Hz|apply cache_ok_empty]).
    - apply merkle_proof_ok; [exact Ht|exact Hb|now apply Hk].
  Qed.

  Lemma do_op_leaves t op : mk_leaves (do_op cfg t op) = map_op cfg (mk_leaves t) op.
  Proof.
    destruct op; cbn [do_op map_op]; try reflexivity.
    - unfold merkle_put, merkle_entry. cbn. apply insert_insert.
    - unfold merkle_get_mut. now destruct (mk_leaves t !! tc_index cfg k).
    - unfold merkle_proof. destruct (_ && _); [reflexivity|]. now destruct (proof_path _ _ _ _ _ _ _).
  Qed.

  Lemma ops_ok ops : forall t,
    (tc_bits cfg <= 256)%nat -> ops_typed cfg ops -> tree_ok t ->
    tree_ok (fold_left (do_op cfg) ops t) /\
    mk_leaves (fold_left (do_op cfg) ops t) = fold_left (map_op cfg) ops (mk_leaves t).
  Proof.
    induction ops as [|op ops IH]; intros t Hb Hty Ht; cbn [fold_left]; [now split|].
    rewrite <- do_op_leaves. apply IH; [exact Hb| |].
    - intros o k Ho. apply Hty. now right.
    - apply do_op_ok; [exact Hb| |exact Ht]. intros k. apply Hty. left.
  Qed.

  Lemma after_ops_ok ops :
    (tc_bits cfg <= 256)%nat -> ops_typed cfg ops ->
    tree_ok (after_ops cfg ops) /\ mk_leaves (after_ops cfg ops) = map_after cfg ops.
  Proof. intros Hb Hty. apply ops_ok; [exact Hb|exact Hty|apply tree_ok_new]. Qed.

  Lemma map_after_no_queries ops :
    map_after cfg (List.filter (fun op => negb (is_proof_query op)) ops) = map_after cfg ops.
  Proof.
    unfold map_after. generalize (∅ : gmap N V). induction ops as [|op ops IH]; intros m; [reflexivity|].
    cbn. destruct op; cbn; apply IH.
  Qed.
End merkle_facts.
