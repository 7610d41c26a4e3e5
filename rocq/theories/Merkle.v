(** Merkleised storage, crates/vapp/src/merkle.rs. *)
From Verif Require Export State Abi.
Open Scope N_scope.

(** The type parameters of [MerkleStorage<K, V, H>] (crates/vapp/src/merkle.rs 32): the key's
    [bits] and [index] (crates/vapp/src/storage.rs 38-77), the value's default, and the hasher
    (crates/vapp/src/merkle.rs 91-97).  Bits are at most 256 in every instance. *)
Record tree_cfg (V : Type) : Type := TreeCfg {
  tc_bits : nat;
  tc_index : N -> N;
  tc_default : V;
  tc_hash : V -> N;
  tc_pair : N -> N -> N
}.
Arguments TreeCfg {V}.
Arguments tc_bits {V}.
Arguments tc_index {V}.
Arguments tc_default {V}.
Arguments tc_hash {V}.
Arguments tc_pair {V}.

(** Order of map entries by key ([Ord for U256], the key order of the [BTreeMap]s of
    crates/vapp/src/merkle.rs 34, 112). *)
Definition key_le {V} (a b : N * V) : Prop := a.1 <= b.1.

(** [Ord] on keys, crates/vapp/src/storage.rs 38. *)
Global Instance key_le_dec {V} (a b : N * V) : Decision (key_le a b).
Proof. unfold key_le. apply _. Defined.

(** [BTreeMap] iteration: entries in increasing key order (crates/vapp/src/merkle.rs 115, 122;
    crates/vapp/src/sparse.rs 109). *)
Definition btree_iter {V} (m : gmap N V) : list (N * V) :=
  merge_sort key_le (map_to_list m).

(** [U256 << n] keeps the low 256 bits (crates/vapp/src/merkle.rs 204-205, 236-237). *)
Definition shl256 (x : N) (n : nat) : N := N.shiftl x (N.of_nat n) mod two256.

(** [COMPUTE_NODE_CACHE_LAYERS], crates/vapp/src/merkle.rs 24. *)
Definition cache_layers : nat := 20.

(** [MerkleStorage], crates/vapp/src/merkle.rs 32-47. *)
Record merkle (V : Type) : Type := Merkle {
  mk_leaves : gmap N V;
  mk_zero_hashes : list N;
  mk_cache : gmap (nat * N) N;
  mk_touched : gset N
}.
Arguments Merkle {V}.
Arguments mk_leaves {V}.
Arguments mk_zero_hashes {V}.
Arguments mk_cache {V}.
Arguments mk_touched {V}.

(** [MerkleProof], crates/vapp/src/merkle.rs 72-82. *)
Record mproof (V : Type) : Type := MProof {
  mp_key : N;
  mp_value : option V;
  mp_path : list N
}.
Arguments MProof {V}.
Arguments mp_key {V}.
Arguments mp_value {V}.
Arguments mp_path {V}.

(** [MerkleStorageError], crates/vapp/src/merkle.rs 50-68. *)
Inductive merkle_error : Type :=
| IndexOutOfBounds
| InvalidMerkleProof
| MissingMerkleProofForUpdatedKey
| FailedToComputeNewRoot
| InvalidMerkleProofLength.

Section merkle.
  Context {V : Type} (cfg : tree_cfg V).

  (** Next zero hash from the previous one (crates/vapp/src/merkle.rs 332-334). *)
  Fixpoint zero_hashes_from (n : nat) (z : N) : list N :=
    match n with
    | O => [z]
    | S n' => z :: zero_hashes_from n' (tc_pair cfg z z)
    end.

  (** [compute_zero_hashes], crates/vapp/src/merkle.rs 327-337. *)
  Definition compute_zero_hashes : list N := zero_hashes_from (tc_bits cfg) 0.

  (** [self.zero_hashes[i]].  The vector always has [bits + 1] elements and [i <= bits], so the
      default is never used. *)
  Definition zero_at (zh : list N) (i : nat) : N := nth i zh 0.

  (** The visit of one node while building the next layer, crates/vapp/src/merkle.rs 122-147. *)
  Definition root_visit (z : N) (cur : gmap N N) (next : gmap N N) (node : N * N) : gmap N N :=
    let '(index, hash) := node in
    let parent := N.shiftr index 1 in
    let is_left := N.land index 1 =? 0 in
    let entry :=
      match next !! parent with
      | Some h => h
      | None => if is_left then tc_pair cfg hash z else tc_pair cfg z hash
      end in
    let entry' :=
      if is_left then
        match cur !! N.lor index 1 with
        | Some sibling => tc_pair cfg hash sibling
        | None => entry
        end
      else
        match cur !! N.ldiff index 1 with
        | Some sibling => tc_pair cfg sibling hash
        | None => entry
        end in
    <[parent := entry']> next.

  (** One layer of [root], crates/vapp/src/merkle.rs 118-150. *)
  Definition root_layer (z : N) (cur : gmap N N) : gmap N N :=
    fold_left (root_visit z cur) (btree_iter cur) ∅.

  (** The layers 1..=num_bits of [root], crates/vapp/src/merkle.rs 118-150; [layer] is the layer
      below the next one to build. *)
  Fixpoint root_layers (zh : list N) (n layer : nat) (cur : gmap N N) : gmap N N :=
    match n with
    | O => cur
    | S n' => root_layers zh n' (S layer) (root_layer (zero_at zh layer) cur)
    end.

  (** [root], crates/vapp/src/merkle.rs 102-157. *)
  Definition merkle_root (t : merkle V) : N :=
    if bool_decide (mk_leaves t = ∅) then zero_at (mk_zero_hashes t) (tc_bits cfg)
    else
      let layer0 := tc_hash cfg <$> mk_leaves t in
      let top := root_layers (mk_zero_hashes t) (tc_bits cfg) 0 layer0 in
      default (zero_at (mk_zero_hashes t) (tc_bits cfg)) (top !! 0).

  (** [is_subtree_empty], crates/vapp/src/merkle.rs 202-213. *)
  Definition is_subtree_empty (leaves : gmap N V) (layer : nat) (index : N) : bool :=
    let start := shl256 index layer in
    let stop := (start + shl256 1 layer) mod two256 in
    if stop =? 0 then forallb (fun kv => negb (start <=? kv.1)) (map_to_list leaves)
    else forallb (fun kv => negb ((start <=? kv.1) && (kv.1 <? stop))) (map_to_list leaves).

  (** The hash of the leaf at [index], crates/vapp/src/merkle.rs 174-178, 221. *)
  Definition leaf_hash (leaves : gmap N V) (zh : list N) (index : N) : N :=
    match leaves !! index with Some v => tc_hash cfg v | None => zero_at zh 0 end.

  (** [compute_node], crates/vapp/src/merkle.rs 219-247, threading the cache. *)
  Fixpoint compute_node (leaves : gmap N V) (zh : list N) (layer : nat) (index : N)
      (cache : gmap (nat * N) N) : N * gmap (nat * N) N :=
    match layer with
    | O => (leaf_hash leaves zh index, cache)
    | S l =>
        match cache !! (layer, index) with
        | Some h => (h, cache)
        | None =>
            if is_subtree_empty leaves layer index then (zero_at zh layer, cache)
            else
              let '(lh, c1) := compute_node leaves zh l (shl256 index 1) cache in
              let '(rh, c2) := compute_node leaves zh l (N.lor (shl256 index 1) 1) c1 in
              let h := tc_pair cfg lh rh in
              (h, if (tc_bits cfg - cache_layers <=? layer)%nat
                  then <[(layer, index) := h]> c2 else c2)
        end
    end.

  (** The sibling hash at one layer of [proof], crates/vapp/src/merkle.rs 172-192. *)
  Definition sibling_hash (leaves : gmap N V) (zh : list N) (layer : nat) (sibling : N)
      (cache : gmap (nat * N) N) : N * gmap (nat * N) N :=
    match layer with
    | O => (leaf_hash leaves zh sibling, cache)
    | S _ =>
        match cache !! (layer, sibling) with
        | Some h => (h, cache)
        | None =>
            if is_subtree_empty leaves layer sibling then (zero_at zh layer, cache)
            else compute_node leaves zh layer sibling cache
        end
    end.

  (** The loop of [proof], crates/vapp/src/merkle.rs 168-196. *)
  Fixpoint proof_path (leaves : gmap N V) (zh : list N) (n layer : nat) (index : N)
      (cache : gmap (nat * N) N) : list N * gmap (nat * N) N :=
    match n with
    | O => ([], cache)
    | S n' =>
        let '(h, c1) := sibling_hash leaves zh layer (N.lxor index 1) cache in
        let '(rest, c2) := proof_path leaves zh n' (S layer) (N.shiftr index 1) c1 in
        (h :: rest, c2)
    end.

  (** [proof], crates/vapp/src/merkle.rs 160-199. *)
  Definition merkle_proof (key : N) (t : merkle V) : result (mproof V) merkle_error * merkle V :=
    let index := tc_index cfg key in
    if (tc_bits cfg <? 256)%nat && (N.shiftl 1 (N.of_nat (tc_bits cfg)) <=? index)
    then (Err IndexOutOfBounds, t)
    else
      let '(path, c) :=
        proof_path (mk_leaves t) (mk_zero_hashes t) (tc_bits cfg) 0 index (mk_cache t) in
      (Ok (MProof key (mk_leaves t !! index) path),
       Merkle (mk_leaves t) (mk_zero_hashes t) c (mk_touched t)).

  (** The loop of [verify_proof_with_hash], crates/vapp/src/merkle.rs 309-317. *)
  Fixpoint fold_path (path : list N) (index hash : N) : N :=
    match path with
    | [] => hash
    | s :: rest =>
        fold_path rest (N.shiftr index 1)
          (if N.land index 1 =? 0 then tc_pair cfg hash s else tc_pair cfg s hash)
    end.

  (** [verify_proof_with_hash], crates/vapp/src/merkle.rs 297-324. *)
  Definition verify_proof_with_hash (root index hash : N) (path : list N)
      : result unit merkle_error :=
    if negb (length path =? tc_bits cfg)%nat then Err InvalidMerkleProofLength
    else if negb (fold_path path index hash =? root) then Err InvalidMerkleProof
    else Ok tt.

  (** The leaf hash a proof claims, crates/vapp/src/merkle.rs 285-288, 398-401. *)
  Definition claimed_hash (v : option V) : N :=
    match v with Some v => tc_hash cfg v | None => 0 end.

  (** [verify_proof], crates/vapp/src/merkle.rs 280-294. *)
  Definition verify_proof (root : N) (p : mproof V) : result unit merkle_error :=
    verify_proof_with_hash root (tc_index cfg (mp_key p)) (claimed_hash (mp_value p)) (mp_path p).

  (** The walk of one proof towards the root in [calculate_new_root],
      crates/vapp/src/merkle.rs 408-433. *)
  Fixpoint replay_path (path : list N) (level : nat) (index hash : N) (nodes : gmap (nat * N) N)
      : gmap (nat * N) N :=
    match path with
    | [] => nodes
    | s :: rest =>
        let sibling_index := N.lxor index 1 in
        let sibling := default s (nodes !! (level, sibling_index)) in
        let nodes1 :=
          match nodes !! (level, sibling_index) with
          | Some _ => nodes
          | None => <[(level, sibling_index) := sibling]> nodes
          end in
        let parent :=
          if N.land index 1 =? 0 then tc_pair cfg hash sibling else tc_pair cfg sibling hash in
        let index' := N.shiftr index 1 in
        replay_path rest (S level) index' parent (<[(S level, index') := parent]> nodes1)
    end.

  (** The loop body over proofs, crates/vapp/src/merkle.rs 391-434. *)
  Definition replay_proof (updates : gmap N V) (nodes : gmap (nat * N) N) (p : mproof V)
      : gmap (nat * N) N :=
    let index := tc_index cfg (mp_key p) in
    let hash :=
      match updates !! index with
      | Some v => tc_hash cfg v
      | None => claimed_hash (mp_value p)
      end in
    replay_path (mp_path p) 0 index hash (<[(0%nat, index) := hash]> nodes).

  (** [for proof in proofs { verify_proof(old_root, proof)?; }], crates/vapp/src/merkle.rs 373-375. *)
  Fixpoint verify_all (root : N) (proofs : list (mproof V)) : result unit merkle_error :=
    match proofs with
    | [] => Ok tt
    | p :: ps =>
        match verify_proof root p with
        | Ok _ => verify_all root ps
        | Err e => Err e
        end
    end.

  (** [calculate_new_root], crates/vapp/src/merkle.rs 353-447. *)
  Definition calculate_new_root (old_root : N) (proofs : list (mproof V))
      (new_values : list (N * V)) : result N merkle_error :=
    match new_values, proofs with
    | [], [] => Ok old_root
    | _, _ =>
        let updates :=
          fold_left (fun m kv => <[tc_index cfg kv.1 := kv.2]> m) new_values ∅ in
        match verify_all old_root proofs with
        | Err e => Err e
        | Ok _ =>
            if forallb (fun kv => existsb (fun p => mp_key p =? kv.1) proofs) new_values then
              let nodes := fold_left (replay_proof updates) proofs ∅ in
              match nodes !! (tc_bits cfg, 0) with
              | Some h => Ok h
              | None => Err FailedToComputeNewRoot
              end
            else Err MissingMerkleProofForUpdatedKey
        end
    end.

  (** ** The storage trait, crates/vapp/src/merkle.rs 489-550 *)

  (** [new], crates/vapp/src/merkle.rs 491-501. *)
  Definition merkle_new : merkle V := Merkle ∅ compute_zero_hashes ∅ ∅.

  (** [insert], crates/vapp/src/merkle.rs 506-515. *)
  Definition merkle_insert (key : N) (v : V) (t : merkle V) : merkle V :=
    Merkle (<[tc_index cfg key := v]> (mk_leaves t)) (mk_zero_hashes t) ∅
      ({[key]} ∪ mk_touched t).

  (** [entry(key)?.or_default()], crates/vapp/src/merkle.rs 518-527. *)
  Definition merkle_entry (key : N) (t : merkle V) : V * merkle V :=
    let index := tc_index cfg key in
    let v := default (tc_default cfg) (mk_leaves t !! index) in
    (v, Merkle (<[index := v]> (mk_leaves t)) (mk_zero_hashes t) ∅ ({[key]} ∪ mk_touched t)).

  (** [get], crates/vapp/src/merkle.rs 530-537. *)
  Definition merkle_get (key : N) (t : merkle V) : option V * merkle V :=
    (mk_leaves t !! tc_index cfg key,
     Merkle (mk_leaves t) (mk_zero_hashes t) (mk_cache t) ({[key]} ∪ mk_touched t)).

  (** [get_mut], crates/vapp/src/merkle.rs 540-549. *)
  Definition merkle_get_mut (key : N) (t : merkle V) : option V * merkle V :=
    (mk_leaves t !! tc_index cfg key,
     Merkle (mk_leaves t) (mk_zero_hashes t) ∅ ({[key]} ∪ mk_touched t)).

  (** A write through a reference returned by [entry] or [get_mut]: only the leaf changes. *)
  Definition merkle_put (key : N) (v : V) (t : merkle V) : merkle V :=
    Merkle (<[tc_index cfg key := v]> (mk_leaves t)) (mk_zero_hashes t) (mk_cache t)
      (mk_touched t).

  (** [impl Storage for MerkleStorage], crates/vapp/src/merkle.rs 489-550. *)
  Definition merkle_storage : storage V (merkle V) :=
    {| sto_insert k v t := Ok (merkle_insert k v t);
       sto_entry k t := Ok (merkle_entry k t);
       sto_get k t := Ok (merkle_get k t);
       sto_get_mut k t := Ok (merkle_get_mut k t);
       sto_put k v t := merkle_put k v t |}.

  (** [get_untracked], crates/vapp/src/merkle.rs 262-265. *)
  Definition merkle_get_untracked (key : N) (t : merkle V) : option V :=
    mk_leaves t !! tc_index cfg key.

  (** [track_touched], crates/vapp/src/merkle.rs 275-277; [get_tracked] (268-273) is [merkle_get]. *)
  Definition merkle_track (key : N) (t : merkle V) : merkle V :=
    Merkle (mk_leaves t) (mk_zero_hashes t) (mk_cache t) ({[key]} ∪ mk_touched t).

  (** [clear_key_tracking], crates/vapp/src/merkle.rs 257-259. *)
  Definition merkle_clear_tracking (t : merkle V) : merkle V :=
    Merkle (mk_leaves t) (mk_zero_hashes t) (mk_cache t) ∅.
End merkle.

(** [MerkleStorage<Address, Account, Keccak256>], crates/vapp/src/state.rs 72;
    hashing per crates/vapp/src/merkle.rs 552-563. *)
Definition account_tree (E : env) : tree_cfg account :=
  {| tc_bits := 160; tc_index := address_index; tc_default := account_default;
     tc_hash a := keccak E (abi_account a); tc_pair l r := keccak E (abi_pair l r) |}.

(** [MerkleStorage<RequestId, bool, Keccak256>], crates/vapp/src/state.rs 72. *)
Definition request_tree (E : env) : tree_cfg bool :=
  {| tc_bits := 160; tc_index := request_index; tc_default := false;
     tc_hash b := keccak E (abi_bool b); tc_pair l r := keccak E (abi_pair l r) |}.

(** The full state: [VAppState<MerkleStorage<..>, MerkleStorage<..>>], crates/vapp/src/state.rs 72. *)
Definition full_state : Type := vstate (merkle account) (merkle bool).

(** [VAppState::execute] on full storage, crates/vapp/src/state.rs 160. *)
Definition execute_full (E : env) (t : tx) (s : full_state) : full_state * exec_result :=
  execute (merkle_storage (account_tree E)) (merkle_storage (request_tree E)) E t s.

(** The hash of a state container, crates/vapp/src/state.rs 75-84, 91-101. *)
Definition container_hash (E : env) {A R} (s : vstate A R) (accounts_root tx_root : N) : N :=
  keccak E (abi_container (vs_domain s) (vs_tx_id s) (vs_onchain_tx_id s) (vs_onchain_block s)
              (vs_onchain_log_index s) accounts_root tx_root).

(** [VAppState::root] on full storage, crates/vapp/src/state.rs 74-85. *)
Definition full_root (E : env) (s : full_state) : N :=
  container_hash E s (merkle_root (account_tree E) (vs_accounts s))
    (merkle_root (request_tree E) (vs_transactions s)).

(** [VAppState::new] with full storage, crates/vapp/src/state.rs 108-118. *)
Definition full_new (E : env) (domain : N) : full_state :=
  new_state domain (merkle_new (account_tree E)) (merkle_new (request_tree E)).
