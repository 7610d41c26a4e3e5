(** The proofs of the theorems and examples of [Props_Merkle.v]. *)
From Verif Require Export MerkleUpdate ToyTree.
Open Scope N_scope.

Lemma C16_root_is_textbook_proof V (cfg : tree_cfg V) (ops : list (store_op V)) :
  forall (Hbits : (tc_bits cfg <= 256)%nat) (Htyped : ops_typed cfg ops),
  merkle_root cfg (after_ops cfg ops) = tree_root cfg (map_after cfg ops).
Proof.
  intros Hb Hty. destruct (after_ops_ok cfg ops Hb Hty) as [[Hz _] Hl].
  rewrite merkle_root_spec by exact Hz. now rewrite Hl.
Qed.

Lemma C16_example_proof :
  ops_typed small_tree ops_a /\ ops_typed small_tree ops_b /\
  map_after small_tree ops_a = map_after small_tree ops_b /\
  mk_cache (after_ops small_tree ops_a) <> mk_cache (after_ops small_tree ops_b) /\
  merkle_root small_tree (after_ops small_tree ops_a) = tree_root small_tree (map_after small_tree ops_b).
Proof.
  split; [apply ops_typedb_ok; vm_compute; reflexivity|].
  split; [apply ops_typedb_ok; vm_compute; reflexivity|].
  split; [apply map_eq_list; vm_compute; reflexivity|].
  split; [|vm_compute; reflexivity].
  intros H. apply (f_equal (fun c => c !! (1%nat, 2))) in H. vm_compute in H. discriminate.
Qed.

Lemma C17_proofs_verify_proof V (cfg : tree_cfg V) (ops : list (store_op V)) (k : N) :
  forall (Hbits : (tc_bits cfg <= 256)%nat) (Htyped : ops_typed cfg ops)
    (Hrange : in_tree cfg (tc_index cfg k)),
  exists p, (merkle_proof cfg k (after_ops cfg ops)).1 = Ok p /\
    mp_key p = k /\ mp_value p = map_after cfg ops !! tc_index cfg k /\
    verify_proof cfg (merkle_root cfg (after_ops cfg ops)) p = Ok tt.
Proof.
  intros Hb Hty Hi. destruct (after_ops_ok cfg ops Hb Hty) as [Ht Hl].
  destruct (merkle_proof_spec cfg _ k Ht Hb Hi) as [Hp _].
  eexists. split; [exact Hp|]. rewrite Hl. cbn [mp_key mp_value true_proof].
  split; [reflexivity|]. split; [reflexivity|].
  rewrite C16_root_is_textbook_proof by assumption. now apply verify_true_proof.
Qed.

Lemma C18_proofs_bind_proof V (cfg : tree_cfg V) (ops : list (store_op V)) (p own : mproof V) :
  forall (Hbits : (tc_bits cfg <= 256)%nat) (Htyped : ops_typed cfg ops)
    (Hrange : in_tree cfg (tc_index cfg (mp_key p)))
    (Hverified : verify_proof cfg (merkle_root cfg (after_ops cfg ops)) p = Ok tt)
    (Hown : (merkle_proof cfg (mp_key p) (after_ops cfg ops)).1 = Ok own)
    (Hpairs : pairs_distinct cfg (proof_pairs cfg p ++ proof_pairs cfg own))
    (Hvalues : values_distinct cfg (proof_values p ++ proof_values own)),
  mp_value p = map_after cfg ops !! tc_index cfg (mp_key p) /\ p = own.
Proof.
  intros Hb Hty Hi Hv Ho Hp Hd. destruct (after_ops_ok cfg ops Hb Hty) as [Ht Hl].
  rewrite C16_root_is_textbook_proof in Hv by assumption.
  destruct (merkle_proof_spec cfg _ (mp_key p) Ht Hb Hi) as [Hq _]. rewrite Ho, Hl in Hq.
  injection Hq as ->.
  pose proof (proof_binding_value cfg _ _ Hi Hv Hp Hd) as E. rewrite E. now split.
Qed.

Lemma C18_example_proof :
  exists p, (merkle_proof small_tree 5 (after_ops small_tree ops_a)).1 = Ok p /\
    pairs_distinct small_tree (proof_pairs small_tree p ++ proof_pairs small_tree p) /\
    values_distinct small_tree (proof_values p ++ proof_values p) /\
    verify_proof small_tree (merkle_root small_tree (after_ops small_tree ops_a)) p = Ok tt /\
    verify_proof small_tree (merkle_root small_tree (after_ops small_tree ops_a))
      (MProof 5 (Some 51) (mp_path p)) = Err InvalidMerkleProof /\
    verify_proof small_tree (merkle_root small_tree (after_ops small_tree ops_a))
      (MProof 5 None (mp_path p)) = Err InvalidMerkleProof.
Proof.
  eexists. split; [vm_compute; reflexivity|].
  split; [apply pairs_distinctb_ok; vm_compute; reflexivity|].
  split; [apply values_distinctb_ok; vm_compute; reflexivity|].
  repeat split; vm_compute; reflexivity.
Qed.

Lemma C19_cache_invisible_proof V (cfg : tree_cfg V) (ops : list (store_op V)) :
  forall (Hbits : (tc_bits cfg <= 256)%nat) (Htyped : ops_typed cfg ops),
  let uncached := after_ops cfg (List.filter (fun op => negb (is_proof_query op)) ops) in
  mk_cache uncached = ∅ /\
  merkle_root cfg (after_ops cfg ops) = merkle_root cfg uncached /\
  forall k, tc_index cfg k < two256 ->
    (merkle_proof cfg k (after_ops cfg ops)).1 = (merkle_proof cfg k uncached).1 /\
    (merkle_get cfg k (after_ops cfg ops)).1 = (merkle_get cfg k uncached).1.
Proof.
  intros Hb Hty uncached.
  assert (Hty' : ops_typed cfg (List.filter (fun op => negb (is_proof_query op)) ops)).
  { intros op k Hin. apply elem_of_list_In, filter_In in Hin as [Hin _].
    apply Hty. now apply elem_of_list_In. }
  destruct (after_ops_ok cfg ops Hb Hty) as [Ht Hl].
  destruct (after_ops_ok cfg _ Hb Hty') as [Ht' Hl']. fold uncached in Ht', Hl'.
  rewrite map_after_no_queries in Hl'.
  split; [apply no_queries_no_cache|]. split.
  - unfold uncached. rewrite !C16_root_is_textbook_proof by assumption. now rewrite map_after_no_queries.
  - intros k Hk. split.
    + now apply (same_proof cfg _ _ (map_after cfg ops)).
    + unfold merkle_get. cbn [fst]. now rewrite Hl, Hl'.
Qed.

Lemma C19_example_proof :
  mk_cache (after_ops small_tree ops_a) <> ∅ /\
  mk_cache (after_ops small_tree (ops_a ++ [OpProof 5; OpProof 9])) <> ∅ /\
  (merkle_proof small_tree 4 (after_ops small_tree (ops_a ++ [OpProof 5; OpProof 9]))).1 =
  (merkle_proof small_tree 4 (after_ops small_tree ops_a)).1.
Proof.
  split; [intros H; apply (f_equal (fun c => c !! (1%nat, 2))) in H; vm_compute in H; discriminate|].
  split; [intros H; apply (f_equal (fun c => c !! (2%nat, 3))) in H; vm_compute in H; discriminate|].
  vm_compute. reflexivity.
Qed.

Lemma C20_incremental_root_proof V (cfg : tree_cfg V) (ops : list (store_op V)) proofs new_values :
  forall (Hbits : (tc_bits cfg <= 256)%nat) (Htyped : ops_typed cfg ops)
    (Hproofs : forall p, p ∈ proofs ->
       in_tree cfg (tc_index cfg (mp_key p)) /\
       (merkle_proof cfg (mp_key p) (after_ops cfg ops)).1 = Ok p)
    (Hcovered : forall k v, (k, v) ∈ new_values -> exists p, p ∈ proofs /\ mp_key p = k),
  calculate_new_root cfg (merkle_root cfg (after_ops cfg ops)) proofs new_values =
  Ok (merkle_root cfg (after_ops cfg (ops ++ map (fun kv => OpInsert kv.1 kv.2) new_values))).
Proof.
  intros Hb Hty Hp Hc. apply (incremental_root cfg ops proofs new_values Hb Hty); [|exact Hc].
  apply Forall_forall. intros p Hin. destruct (Hp p Hin) as [Hi Hq].
  destruct (after_ops_ok cfg ops Hb Hty) as [Ht Hl].
  destruct (merkle_proof_spec cfg _ (mp_key p) Ht Hb Hi) as [Hq' _]. rewrite Hq, Hl in Hq'.
  injection Hq' as E. split; [exact Hi|]. rewrite <- E. split; [reflexivity|]. rewrite E. reflexivity.
Qed.

Lemma C20_incremental_root_sound_proof V (cfg : tree_cfg V) (ops : list (store_op V)) proofs own new_values r :
  forall (Hbits : (tc_bits cfg <= 256)%nat) (Htyped : ops_typed cfg ops)
    (Hrun : calculate_new_root cfg (merkle_root cfg (after_ops cfg ops)) proofs new_values = Ok r)
    (Hown : Forall2 (fun p q => in_tree cfg (tc_index cfg (mp_key p)) /\
                       (merkle_proof cfg (mp_key p) (after_ops cfg ops)).1 = Ok q) proofs own)
    (Hpairs : pairs_distinct cfg (flat_map (proof_pairs cfg) (proofs ++ own))),
  r = merkle_root cfg (after_ops cfg (ops ++ map (fun kv => OpInsert kv.1 kv.2) new_values)).
Proof.
  intros Hb Hty Hrun Ho Hd. pose proof Hrun as Hrun'.
  apply calculate_new_root_inv in Hrun' as [Hv Hc].
  destruct (after_ops_ok cfg ops Hb Hty) as [Ht Hl].
  rewrite (incremental_root cfg ops proofs new_values Hb Hty) in Hrun; [congruence| |exact Hc].
  apply Forall_forall. intros p Hin. rewrite Forall_forall in Hv. specialize (Hv p Hin).
  apply elem_of_list_lookup in Hin as [n Hn].
  destruct (Forall2_lookup_l _ _ _ _ _ Ho Hn) as (q & Hq & Hi & Hmp).
  destruct (merkle_proof_spec cfg _ (mp_key p) Ht Hb Hi) as [Hq' _]. rewrite Hmp, Hl in Hq'.
  injection Hq' as ->. rewrite C16_root_is_textbook_proof in Hv by assumption.
  split; [exact Hi|].
  destruct (proof_binding cfg _ _ Hi Hv) as [H1 H2]; [|now split].
  apply (pairs_distinct_sub cfg _ _ Hd). intros x Hx. apply elem_of_list_In, in_flat_map.
  apply elem_of_app in Hx as [Hx|Hx]; eexists; (split; [|apply elem_of_list_In; exact Hx]);
    apply elem_of_list_In, elem_of_app; [left|right]; eapply elem_of_list_lookup_2; eassumption.
Qed.

Lemma C20_rejects_proof V (cfg : tree_cfg V) root proofs new_values :
  forall (Hbad : (exists p, p ∈ proofs /\ verify_proof cfg root p <> Ok tt) \/
                 (exists k v, (k, v) ∈ new_values /\ forall p, p ∈ proofs -> mp_key p <> k)),
  exists e, calculate_new_root cfg root proofs new_values = Err e.
Proof.
  intros Hbad. destruct (calculate_new_root cfg root proofs new_values) as [r|e] eqn:E; [exfalso|eauto].
  apply calculate_new_root_inv in E as [Hv Hc]. rewrite Forall_forall in Hv.
  destruct Hbad as [(p & Hin & Hp)|(k & v & Hin & Hp)].
  - now apply Hp, Hv.
  - apply Hc in Hin as (p & Hin & Hk). now apply (Hp p Hin).
Qed.

Lemma C20_example_proof :
  exists ps,
    map (fun k => (merkle_proof small_tree k (after_ops small_tree ops_a)).1) [4; 7; 5; 4; 12] = map Ok ps /\
    pairs_distinct small_tree (flat_map (proof_pairs small_tree) (ps ++ ps)) /\
    calculate_new_root small_tree (merkle_root small_tree (after_ops small_tree ops_a)) ps
      [(4, 1004); (7, 1007); (5, 1005)] =
    Ok (tree_root small_tree (<[4 := 1004]> (<[7 := 1007]> (<[5 := 1005]> (map_after small_tree ops_a))))) /\
    calculate_new_root small_tree (merkle_root small_tree (after_ops small_tree ops_a)) ps
      [(6, 1004)] = Err MissingMerkleProofForUpdatedKey.
Proof.
  eexists [_; _; _; _; _]. split; [vm_compute; reflexivity|].
  split; [apply pairs_distinctb_ok; vm_compute; reflexivity|].
  split; vm_compute; reflexivity.
Qed.
