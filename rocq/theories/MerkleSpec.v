(** Vocabulary for the theorems about the Merkle storage: the textbook tree, sequences of storage
    operations, and what a proof check hashes. *)
From Verif Require Export Sparse.
Open Scope N_scope.

(** ** The textbook tree *)

(** The hash of the node at a height above the leaves: a leaf is the hash of its value, or zero when
    there is none; an inner node is the hash of the pair of its children. *)
Fixpoint tree_hash {V} (cfg : tree_cfg V) (m : gmap N V) (height : nat) (index : N) : N :=
  match height with
  | O => match m !! index with Some v => tc_hash cfg v | None => 0 end
  | S h => tc_pair cfg (tree_hash cfg m h (2 * index)) (tree_hash cfg m h (2 * index + 1))
  end.

(** The root of the tree with these contents. *)
Definition tree_root {V} (cfg : tree_cfg V) (m : gmap N V) : N := tree_hash cfg m (tc_bits cfg) 0.

(** The siblings on the way from a leaf to the root. *)
Fixpoint siblings {V} (cfg : tree_cfg V) (m : gmap N V) (n height : nat) (index : N) : list N :=
  match n with
  | O => []
  | S n' =>
      tree_hash cfg m height (if N.even index then index + 1 else index - 1)
      :: siblings cfg m n' (S height) (index / 2)
  end.

(** An index has a leaf in the tree. *)
Definition in_tree {V} (cfg : tree_cfg V) (index : N) : Prop := index < 2 ^ N.of_nat (tc_bits cfg).

(** ** Sequences of storage operations *)

(** The calls of the storage interface, with the writes through the references they hand out. *)
Inductive store_op (V : Type) : Type :=
| OpInsert (k : N) (v : V)
| OpEntry (k : N)
| OpEntryPut (k : N) (v : V)
| OpGet (k : N)
| OpGetMut (k : N)
| OpGetMutPut (k : N) (v : V)
| OpProof (k : N)
| OpTrack (k : N)
| OpClearTracking.
Arguments OpInsert {V}.
Arguments OpEntry {V}.
Arguments OpEntryPut {V}.
Arguments OpGet {V}.
Arguments OpGetMut {V}.
Arguments OpGetMutPut {V}.
Arguments OpProof {V}.
Arguments OpTrack {V}.
Arguments OpClearTracking {V}.

(** One call on the Merkle storage. *)
Definition do_op {V} (cfg : tree_cfg V) (t : merkle V) (op : store_op V) : merkle V :=
  match op with
  | OpInsert k v => merkle_insert cfg k v t
  | OpEntry k => (merkle_entry cfg k t).2
  | OpEntryPut k v => merkle_put cfg k v (merkle_entry cfg k t).2
  | OpGet k => (merkle_get cfg k t).2
  | OpGetMut k => (merkle_get_mut cfg k t).2
  | OpGetMutPut k v =>
      match merkle_get_mut cfg k t with
      | (Some _, t') => merkle_put cfg k v t'
      | (None, t') => t'
      end
  | OpProof k => (merkle_proof cfg k t).2
  | OpTrack k => merkle_track k t
  | OpClearTracking => merkle_clear_tracking t
  end.

(** The same call on a plain map from indices to values. *)
Definition map_op {V} (cfg : tree_cfg V) (m : gmap N V) (op : store_op V) : gmap N V :=
  match op with
  | OpInsert k v | OpEntryPut k v => <[tc_index cfg k := v]> m
  | OpEntry k => <[tc_index cfg k := default (tc_default cfg) (m !! tc_index cfg k)]> m
  | OpGetMutPut k v =>
      match m !! tc_index cfg k with Some _ => <[tc_index cfg k := v]> m | None => m end
  | OpGet _ | OpGetMut _ | OpProof _ | OpTrack _ | OpClearTracking => m
  end.

(** The key a call names, if any. *)
Definition op_key {V} (op : store_op V) : option N :=
  match op with
  | OpInsert k _ | OpEntryPut k _ | OpEntry k | OpGetMutPut k _
  | OpGet k | OpGetMut k | OpProof k | OpTrack k => Some k
  | OpClearTracking => None
  end.

(** The call is a proof query. *)
Definition is_proof_query {V} (op : store_op V) : bool :=
  match op with OpProof _ => true | _ => false end.

(** A storage after a sequence of calls on a new one, and its contents. *)
Definition after_ops {V} (cfg : tree_cfg V) (ops : list (store_op V)) : merkle V :=
  fold_left (do_op cfg) ops (merkle_new cfg).
Definition map_after {V} (cfg : tree_cfg V) (ops : list (store_op V)) : gmap N V :=
  fold_left (map_op cfg) ops ∅.

(** Key indices are 256-bit numbers, as the Rust types enforce. *)
Definition ops_typed {V} (cfg : tree_cfg V) (ops : list (store_op V)) : Prop :=
  forall op k, op ∈ ops -> op_key op = Some k -> tc_index cfg k < two256.

(** ** What checking a proof hashes *)

(** The pairs hashed while walking from a leaf with this hash to the root. *)
Fixpoint path_pairs {V} (cfg : tree_cfg V) (path : list N) (index hash : N) : list (N * N) :=
  match path with
  | [] => []
  | s :: rest =>
      let p := if N.even index then (hash, s) else (s, hash) in
      p :: path_pairs cfg rest (index / 2) (tc_pair cfg p.1 p.2)
  end.

(** The pairs hashed when checking a proof. *)
Definition proof_pairs {V} (cfg : tree_cfg V) (p : mproof V) : list (N * N) :=
  path_pairs cfg (mp_path p) (tc_index cfg (mp_key p))
    (match mp_value p with Some v => tc_hash cfg v | None => 0 end).

(** The values hashed when checking a proof. *)
Definition proof_values {V} (p : mproof V) : list V :=
  match mp_value p with Some v => [v] | None => [] end.

(** No two of these pairs have the same hash. *)
Definition pairs_distinct {V} (cfg : tree_cfg V) (l : list (N * N)) : Prop :=
  forall p q, p ∈ l -> q ∈ l -> tc_pair cfg p.1 p.2 = tc_pair cfg q.1 q.2 -> p = q.

(** No two of these values have the same hash, and none hashes to zero. *)
Definition values_distinct {V} (cfg : tree_cfg V) (l : list V) : Prop :=
  (forall v w, v ∈ l -> w ∈ l -> tc_hash cfg v = tc_hash cfg w -> v = w) /\
  (forall v, v ∈ l -> tc_hash cfg v <> 0).
