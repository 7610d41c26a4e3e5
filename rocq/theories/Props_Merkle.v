(** Properties of the Merkle storage.  The vocabulary is in [MerkleSpec.v].  In every theorem the tree
    parameters are arbitrary: depth up to 256, key index, value hash and pair hash. *)
From Verif Require Import Proofs_Merkle.
Open Scope N_scope.

(** ** C16: the root is a function of the contents *)

Theorem C16_root_is_textbook V (cfg : tree_cfg V) (ops : list (store_op V)) :
  forall (Hbits : (tc_bits cfg <= 256)%nat) (Htyped : ops_typed cfg ops),
  merkle_root cfg (after_ops cfg ops) = tree_root cfg (map_after cfg ops).
Proof. exact (C16_root_is_textbook_proof V cfg ops). Qed.
Print Assumptions C16_root_is_textbook.

Theorem C16_root_order_independent V (cfg : tree_cfg V) (ops1 ops2 : list (store_op V)) :
  forall (Hbits : (tc_bits cfg <= 256)%nat) (Htyped1 : ops_typed cfg ops1) (Htyped2 : ops_typed cfg ops2)
    (Hsame : map_after cfg ops1 = map_after cfg ops2),
  merkle_root cfg (after_ops cfg ops1) = merkle_root cfg (after_ops cfg ops2).
Proof. intros Hb H1 H2 Hs. rewrite !C16_root_is_textbook by assumption. now rewrite Hs. Qed.
Print Assumptions C16_root_order_independent.

(** Five entries, in two orders, with overwritten values and queries in between. *)
Example C16_example :
  ops_typed small_tree ops_a /\ ops_typed small_tree ops_b /\
  map_after small_tree ops_a = map_after small_tree ops_b /\
  mk_cache (after_ops small_tree ops_a) <> mk_cache (after_ops small_tree ops_b) /\
  merkle_root small_tree (after_ops small_tree ops_a) = tree_root small_tree (map_after small_tree ops_b).
Proof. exact C16_example_proof. Qed.

(** ** C17: every honest proof verifies *)

Theorem C17_proofs_verify V (cfg : tree_cfg V) (ops : list (store_op V)) (k : N) :
  forall (Hbits : (tc_bits cfg <= 256)%nat) (Htyped : ops_typed cfg ops)
    (Hrange : in_tree cfg (tc_index cfg k)),
  exists p, (merkle_proof cfg k (after_ops cfg ops)).1 = Ok p /\
    mp_key p = k /\ mp_value p = map_after cfg ops !! tc_index cfg k /\
    verify_proof cfg (merkle_root cfg (after_ops cfg ops)) p = Ok tt.
Proof. exact (C17_proofs_verify_proof V cfg ops k). Qed.
Print Assumptions C17_proofs_verify.

Theorem C17_out_of_range V (cfg : tree_cfg V) (t : merkle V) (k : N) :
  forall (Hbits : (tc_bits cfg < 256)%nat) (Hrange : ~ in_tree cfg (tc_index cfg k)),
  merkle_proof cfg k t = (Err IndexOutOfBounds, t).
Proof. apply merkle_proof_out. Qed.
Print Assumptions C17_out_of_range.

Example C17_example :
  map_option (fun p => (mp_value p, mp_path p))
    (merkle_proof small_tree 5 (after_ops small_tree ops_a)).1 =
    Some (Some 50, [small_hash 44; small_pair 0 0; tree_hash small_tree (map_after small_tree ops_a) 2 0;
                    tree_hash small_tree (map_after small_tree ops_a) 3 1]) /\
  map_option mp_value (merkle_proof small_tree 7 (after_ops small_tree ops_a)).1 = Some None /\
  merkle_proof small_tree 16 (after_ops small_tree ops_a)
    = (Err IndexOutOfBounds, after_ops small_tree ops_a).
Proof. vm_compute. repeat split. Qed.

(** ** C18: a verified proof states the truth *)

(** The pairs and values that must not collide are those hashed when checking the given proof and when
    checking the storage's own proof for the same key. *)
Theorem C18_proofs_bind V (cfg : tree_cfg V) (ops : list (store_op V)) (p own : mproof V) :
  forall (Hbits : (tc_bits cfg <= 256)%nat) (Htyped : ops_typed cfg ops)
    (Hrange : in_tree cfg (tc_index cfg (mp_key p)))
    (Hverified : verify_proof cfg (merkle_root cfg (after_ops cfg ops)) p = Ok tt)
    (Hown : (merkle_proof cfg (mp_key p) (after_ops cfg ops)).1 = Ok own)
    (Hpairs : pairs_distinct cfg (proof_pairs cfg p ++ proof_pairs cfg own))
    (Hvalues : values_distinct cfg (proof_values p ++ proof_values own)),
  mp_value p = map_after cfg ops !! tc_index cfg (mp_key p) /\ p = own.
Proof. exact (C18_proofs_bind_proof V cfg ops p own). Qed.
Print Assumptions C18_proofs_bind.

(** The hypotheses are met by the storage's own proof, and a proof that lies does not verify. *)
Example C18_example :
  exists p, (merkle_proof small_tree 5 (after_ops small_tree ops_a)).1 = Ok p /\
    pairs_distinct small_tree (proof_pairs small_tree p ++ proof_pairs small_tree p) /\
    values_distinct small_tree (proof_values p ++ proof_values p) /\
    verify_proof small_tree (merkle_root small_tree (after_ops small_tree ops_a)) p = Ok tt /\
    verify_proof small_tree (merkle_root small_tree (after_ops small_tree ops_a))
      (MProof 5 (Some 51) (mp_path p)) = Err InvalidMerkleProof /\
    verify_proof small_tree (merkle_root small_tree (after_ops small_tree ops_a))
      (MProof 5 None (mp_path p)) = Err InvalidMerkleProof.
Proof. exact C18_example_proof. Qed.

(** ** C19: the node cache is invisible *)

(** Leaving out all proof queries, so that nothing is ever cached, changes neither the root nor any later
    proof or read. *)
Theorem C19_cache_invisible V (cfg : tree_cfg V) (ops : list (store_op V)) :
  forall (Hbits : (tc_bits cfg <= 256)%nat) (Htyped : ops_typed cfg ops),
  let uncached := after_ops cfg (List.filter (fun op => negb (is_proof_query op)) ops) in
  mk_cache uncached = ∅ /\
  merkle_root cfg (after_ops cfg ops) = merkle_root cfg uncached /\
  forall k, tc_index cfg k < two256 ->
    (merkle_proof cfg k (after_ops cfg ops)).1 = (merkle_proof cfg k uncached).1 /\
    (merkle_get cfg k (after_ops cfg ops)).1 = (merkle_get cfg k uncached).1.
Proof. exact (C19_cache_invisible_proof V cfg ops). Qed.
Print Assumptions C19_cache_invisible.

Example C19_example :
  mk_cache (after_ops small_tree ops_a) <> ∅ /\
  mk_cache (after_ops small_tree (ops_a ++ [OpProof 5; OpProof 9])) <> ∅ /\
  (merkle_proof small_tree 4 (after_ops small_tree (ops_a ++ [OpProof 5; OpProof 9]))).1 =
  (merkle_proof small_tree 4 (after_ops small_tree ops_a)).1.
Proof. exact C19_example_proof. Qed.

(** ** C20: the incremental root is the true root *)

(** With the storage's own proofs, in any order and with any repetitions. *)
Theorem C20_incremental_root V (cfg : tree_cfg V) (ops : list (store_op V)) proofs new_values :
  forall (Hbits : (tc_bits cfg <= 256)%nat) (Htyped : ops_typed cfg ops)
    (Hproofs : forall p, p ∈ proofs ->
       in_tree cfg (tc_index cfg (mp_key p)) /\
       (merkle_proof cfg (mp_key p) (after_ops cfg ops)).1 = Ok p)
    (Hcovered : forall k v, (k, v) ∈ new_values -> exists p, p ∈ proofs /\ mp_key p = k),
  calculate_new_root cfg (merkle_root cfg (after_ops cfg ops)) proofs new_values =
  Ok (merkle_root cfg (after_ops cfg (ops ++ map (fun kv => OpInsert kv.1 kv.2) new_values))).
Proof. exact (C20_incremental_root_proof V cfg ops proofs new_values). Qed.
Print Assumptions C20_incremental_root.

(** With proofs of unknown origin: if the computation succeeds its result is the true root, unless two of
    the pairs hashed collide. *)
Theorem C20_incremental_root_sound V (cfg : tree_cfg V) (ops : list (store_op V)) proofs own new_values r :
  forall (Hbits : (tc_bits cfg <= 256)%nat) (Htyped : ops_typed cfg ops)
    (Hrun : calculate_new_root cfg (merkle_root cfg (after_ops cfg ops)) proofs new_values = Ok r)
    (Hown : Forall2 (fun p q => in_tree cfg (tc_index cfg (mp_key p)) /\
                       (merkle_proof cfg (mp_key p) (after_ops cfg ops)).1 = Ok q) proofs own)
    (Hpairs : pairs_distinct cfg (flat_map (proof_pairs cfg) (proofs ++ own))),
  r = merkle_root cfg (after_ops cfg (ops ++ map (fun kv => OpInsert kv.1 kv.2) new_values)).
Proof. exact (C20_incremental_root_sound_proof V cfg ops proofs own new_values r). Qed.
Print Assumptions C20_incremental_root_sound.

(** An invalid proof, or a written key without a proof, is rejected. *)
Theorem C20_rejects V (cfg : tree_cfg V) root proofs new_values :
  forall (Hbad : (exists p, p ∈ proofs /\ verify_proof cfg root p <> Ok tt) \/
                 (exists k v, (k, v) ∈ new_values /\ forall p, p ∈ proofs -> mp_key p <> k)),
  exists e, calculate_new_root cfg root proofs new_values = Err e.
Proof. exact (C20_rejects_proof V cfg root proofs new_values). Qed.
Print Assumptions C20_rejects.

(** Four proofs with overlapping paths, one of them repeated, one for an absent key that is then written. *)
Example C20_example :
  exists ps,
    map (fun k => (merkle_proof small_tree k (after_ops small_tree ops_a)).1) [4; 7; 5; 4; 12] = map Ok ps /\
    pairs_distinct small_tree (flat_map (proof_pairs small_tree) (ps ++ ps)) /\
    calculate_new_root small_tree (merkle_root small_tree (after_ops small_tree ops_a)) ps
      [(4, 1004); (7, 1007); (5, 1005)] =
    Ok (tree_root small_tree (<[4 := 1004]> (<[7 := 1007]> (<[5 := 1005]> (map_after small_tree ops_a))))) /\
    calculate_new_root small_tree (merkle_root small_tree (after_ops small_tree ops_a)) ps
      [(6, 1004)] = Err MissingMerkleProofForUpdatedKey.
Proof. exact C20_example_proof. Qed.
