(** A small specification of the ledger, independent of how [State.v] computes.

    It says when a transaction is valid and what it does, as conditions on the message contents and
    a list of payments.  It uses the data types, the external functions and the encodings of the
    model, but none of its programs. *)
From Verif Require Export Env.
Open Scope N_scope.

(** ** Accounts *)

(** The account at an address; an address never seen has the empty account. *)
Definition acct (m : gmap N account) (k : N) : account := default (Account 0 0 0 0) (m !! k).
(** The balance at an address. *)
Definition bal (m : gmap N account) (k : N) : N := acc_balance (acct m k).
(** The sum of all balances. *)
Definition total_balance (m : gmap N account) : N := map_fold (fun _ a s => acc_balance a + s) 0 m.

(** ** Payments *)

Inductive payment : Type :=
| Pay (who amount : N)
| Receive (who amount : N).

(** What a payment changes, as a signed amount at an address. *)
Definition payment_delta (p : payment) (who : N) : Z :=
  match p with
  | Pay k x => if (k =? who)%N then - Z.of_N x else 0
  | Receive k x => if (k =? who)%N then Z.of_N x else 0
  end%Z.

(** The net effect of a list of payments at an address. *)
Definition net (ps : list payment) (who : N) : Z :=
  fold_right (fun p acc => (payment_delta p who + acc)%Z) 0%Z ps.

(** The net effect of a list of payments on the sum of all balances. *)
Definition net_total (ps : list payment) : Z :=
  fold_right (fun p acc => (match p with Pay _ x => - Z.of_N x | Receive _ x => Z.of_N x end
                            + acc)%Z) 0%Z ps.

(** ** Reading the fields of a message *)

(** A field of exactly 20 bytes is an address, big endian. *)
Definition as_address (bs : bytes) : option N :=
  if (length bs =? 20)%nat then Some (from_be bs) else None.

(** A field of exactly 32 bytes is a word, big endian. *)
Definition as_word (bs : bytes) : option N :=
  if (length bs =? 32)%nat then Some (from_be bs) else None.

(** The version starts with the six characters "sp1-v6". *)
Definition is_sp1_v6 (version : bytes) : Prop :=
  exists rest, version = [115; 112; 49; 45; 118; 54] ++ rest.

(** The eight big-endian 32-bit words of a 32-byte verification key hash. *)
Definition vk_words (vk : bytes) : list N :=
  map from_be [take 4 vk; take 4 (drop 4 vk); take 4 (drop 8 vk); take 4 (drop 12 vk);
               take 4 (drop 16 vk); take 4 (drop 20 vk); take 4 (drop 24 vk); take 4 (drop 28 vk)].

(** The next value of a 64-bit counter, which wraps around. *)
Definition next_u64 (x : N) : N := (x + 1) mod 2 ^ 64.
Global Arguments next_u64 : simpl never.

(** ** Signatures *)

(** [m] carries [body], and its signature recovers to [who] over the binary (format 1) or JSON
    (format 2) serialisation of [body]. *)
Definition signed_by {B} (E : env) (binary : B -> bytes) (json : B -> option bytes)
    (m : signed B) (body : B) (who : N) : Prop :=
  s_body m = Some body /\
  ((s_format m = 1%Z /\ ecrecover E (binary body) (s_signature m) = Some who) \/
   (s_format m = 2%Z /\
    exists js, json body = Some js /\ ecrecover E js (s_signature m) = Some who)).

(** The id under which a signed body is remembered. *)
Definition message_id (E : env) (who : N) (encoded : bytes) : N :=
  keccak E (be_bytes 20 who ++ encoded).

(** ** What each transaction asks for *)

Inductive action : Type :=
| ADeposit (account amount : N)
| ACreateProver (prover owner bips : N)
| ADelegate (owner prover delegate auctioneer fee : N)
| ATransfer (from to amount auctioneer fee : N)
| AWithdraw (signer account amount auctioneer fee : N)
| APunish (requester treasury punishment : N)
| AClear (requester treasury prover prover_owner cost bips : N).

(** Who pays and who receives under each action.  In a clear the protocol's share is zero, the
    prover's stakers get [cost * bips / 10000] and the prover's owner gets the rest. *)
Definition payments (a : action) : list payment :=
  match a with
  | ADeposit who x => [Receive who x]
  | ACreateProver _ _ _ => []
  | ADelegate owner _ _ auctioneer fee => [Pay owner fee; Receive auctioneer fee]
  | ATransfer from to x auctioneer fee =>
      [Pay from x; Receive to x; Pay from fee; Receive auctioneer fee]
  | AWithdraw signer who x auctioneer fee => [Pay who x; Pay signer fee; Receive auctioneer fee]
  | APunish requester treasury x => [Pay requester x; Receive treasury x]
  | AClear requester treasury prover owner cost bips =>
      [Pay requester cost; Receive treasury 0; Receive prover (cost * bips / 10000);
       Receive owner (cost - cost * bips / 10000)]
  end.

(** The transaction asks for the action: its fields and signatures say so.  A clear's prover owner and
    staker share are those recorded in the accounts [m]. *)
Inductive asks (E : env) (m : gmap N account) : tx -> action -> Prop :=
| asks_deposit d :
    asks E m (TxDeposit d) (ADeposit (da_account (oc_action d)) (da_amount (oc_action d)))
| asks_create_prover c :
    asks E m (TxCreateProver c)
      (ACreateProver (cp_prover (oc_action c)) (cp_owner (oc_action c)) (cp_bips (oc_action c)))
| asks_delegate d body owner prover delegate auctioneer fee :
    signed_by E encode_delegation (json_delegation E) d body owner ->
    as_address (db_prover body) = Some prover ->
    as_address (db_delegate body) = Some delegate ->
    as_address (db_auctioneer body) = Some auctioneer ->
    parse_u256 E (db_fee body) = Some fee ->
    asks E m (TxDelegate d) (ADelegate owner prover delegate auctioneer fee)
| asks_transfer t body from to amount auctioneer fee :
    signed_by E encode_transfer (json_transfer E) t body from ->
    as_address (tb_to body) = Some to ->
    parse_u256 E (tb_amount body) = Some amount ->
    as_address (tb_auctioneer body) = Some auctioneer ->
    parse_u256 E (tb_fee body) = Some fee ->
    asks E m (TxTransfer t) (ATransfer from to amount auctioneer fee)
| asks_withdraw w body signer who amount auctioneer fee :
    signed_by E encode_withdraw (json_withdraw E) w body signer ->
    as_address (wb_account body) = Some who ->
    parse_u256 E (wb_amount body) = Some amount ->
    as_address (wb_auctioneer body) = Some auctioneer ->
    parse_u256 E (wb_fee body) = Some fee ->
    asks E m (TxWithdraw w) (AWithdraw signer who amount auctioneer fee)
| asks_punish c request requester execute executor s treasury punishment :
    signed_by E encode_request (json_request E) (cl_request c) request requester ->
    signed_by E encode_execute (json_execute E) (cl_execute c) execute executor ->
    eb_execution_status execute = 3%Z ->
    eb_punishment execute = Some s ->
    parse_u256 E s = Some punishment ->
    as_address (rb_treasury request) = Some treasury ->
    asks E m (TxClear c) (APunish requester treasury punishment)
| asks_clear c request requester bid bidder execute executor prover treasury price base_fee pgus :
    signed_by E encode_request (json_request E) (cl_request c) request requester ->
    signed_by E encode_bid (json_bid E) (cl_bid c) bid bidder ->
    signed_by E encode_execute (json_execute E) (cl_execute c) execute executor ->
    eb_execution_status execute = 2%Z ->
    as_address (bb_prover bid) = Some prover ->
    as_address (rb_treasury request) = Some treasury ->
    parse_u256 E (bb_amount bid) = Some price ->
    parse_u256 E (rb_base_fee request) = Some base_fee ->
    eb_pgus execute = Some pgus ->
    asks E m (TxClear c)
      (AClear requester treasury prover (acc_owner (acct m prover)) (price * pgus + base_fee)
         (acc_bips (acct m prover))).
