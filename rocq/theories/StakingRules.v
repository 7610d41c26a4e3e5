(** The staking contract as a table of rules: for each call, when it is accepted and what it does, in terms of what
    anyone can read from the contracts. *)
From Verif Require Export StakingSpec.
Open Scope N_scope.

(** What can be read: balances and allowances, by address; supplies; the registry; the reward settings; and for
    each staker or prover the claims, the slash requests and the escrow. *)
Record picture : Type := Picture {
  pc_owner : N;
  pc_prove : N -> N;
  pc_allowed : N -> N -> N;
  pc_iprove : N -> N;
  pc_isupply : N;
  pc_shares : N -> N;
  pc_stprove : N -> N;
  pc_stsupply : N;
  pc_provers : N -> bool;
  pc_deactivated : N -> bool;
  pc_prover_of : N -> N;
  pc_count : N;
  pc_dispensing : dispensing;
  pc_bound : N -> N;
  pc_claims : N -> list unstake_claim;
  pc_slashes : N -> list slash_claim;
  pc_pools : N -> escrow_pool
}.

Definition picture_of (s : staking) : picture :=
  let b := sk_bank s in let r := sk_registry s in
  Picture (sk_owner s) (tk_balance (bk_prove b)) (tk_allowance (bk_prove b)) (tk_balance (bk_iprove b))
    (bk_isupply b) (fun p => default 0 (bk_shares b !! p)) (fun a => default 0 (bk_stakes b !! a)) (bk_stsupply b)
    (fun p => bool_decide (p ∈ rg_provers r)) (fun p => bool_decide (p ∈ rg_deactivated r))
    (fun o => default 0 (rg_owners r !! o)) (rg_count r) (sk_dispensing s)
    (fun a => default 0 (sk_bound s !! a)) (fun a => default [] (sk_claims s !! a))
    (fun p => default [] (sk_slashes s !! p)) (fun p => default (EscrowPool 0 0) (sk_pools s !! p)).

(** Two pictures show the same. *)
Record alike (v w : picture) : Prop := {
  al_owner : pc_owner v = pc_owner w;
  al_prove : forall a, pc_prove v a = pc_prove w a;
  al_allowed : forall a b, pc_allowed v a b = pc_allowed w a b;
  al_iprove : forall a, pc_iprove v a = pc_iprove w a;
  al_isupply : pc_isupply v = pc_isupply w;
  al_shares : forall p, pc_shares v p = pc_shares w p;
  al_stprove : forall a, pc_stprove v a = pc_stprove w a;
  al_stsupply : pc_stsupply v = pc_stsupply w;
  al_provers : forall p, pc_provers v p = pc_provers w p;
  al_deactivated : forall p, pc_deactivated v p = pc_deactivated w p;
  al_prover_of : forall o, pc_prover_of v o = pc_prover_of w o;
  al_count : pc_count v = pc_count w;
  al_dispensing : pc_dispensing v = pc_dispensing w;
  al_bound : forall a, pc_bound v a = pc_bound w a;
  al_claims : forall a, pc_claims v a = pc_claims w a;
  al_slashes : forall p, pc_slashes v p = pc_slashes w p;
  al_pools : forall p, pc_pools v p = pc_pools w p
}.

(** ** Changes *)

Definition put {X} (k : N) (x : X) (f : N -> X) : N -> X := fun y => if y =? k then x else f y.
Definition plus (k n : N) (f : N -> N) : N -> N := fun y => if y =? k then f y + n else f y.
Definition minus (k n : N) (f : N -> N) : N -> N := fun y => if y =? k then f y - n else f y.
(** [n] moved from one account to another. *)
Definition moved (from to n : N) (f : N -> N) : N -> N := plus to n (minus from n f).

(** An allowance of 2^256 - 1 is unlimited. *)
Definition may_spend (v : picture) (owner spender n : N) : Prop :=
  pc_allowed v owner spender = 2 ^ 256 - 1 \/ n <= pc_allowed v owner spender.
Definition spent (owner spender n : N) (f : N -> N -> N) : N -> N -> N :=
  fun a b => if (a =? owner) && (b =? spender) && negb (f a b =? 2 ^ 256 - 1) then f a b - n else f a b.

Definition with_prove (f : N -> N) (g : N -> N -> N) (v : picture) : picture :=
  Picture (pc_owner v) f g (pc_iprove v) (pc_isupply v) (pc_shares v) (pc_stprove v) (pc_stsupply v) (pc_provers v)
    (pc_deactivated v) (pc_prover_of v) (pc_count v) (pc_dispensing v) (pc_bound v) (pc_claims v) (pc_slashes v)
    (pc_pools v).
Definition with_iprove (f : N -> N) (supply : N) (v : picture) : picture :=
  Picture (pc_owner v) (pc_prove v) (pc_allowed v) f supply (pc_shares v) (pc_stprove v) (pc_stsupply v)
    (pc_provers v) (pc_deactivated v) (pc_prover_of v) (pc_count v) (pc_dispensing v) (pc_bound v) (pc_claims v)
    (pc_slashes v) (pc_pools v).
Definition with_stakes (shares stprove : N -> N) (supply : N) (v : picture) : picture :=
  Picture (pc_owner v) (pc_prove v) (pc_allowed v) (pc_iprove v) (pc_isupply v) shares stprove supply
    (pc_provers v) (pc_deactivated v) (pc_prover_of v) (pc_count v) (pc_dispensing v) (pc_bound v) (pc_claims v)
    (pc_slashes v) (pc_pools v).
Definition with_registry (provers deactivated : N -> bool) (prover_of : N -> N) (count : N) (v : picture) : picture :=
  Picture (pc_owner v) (pc_prove v) (pc_allowed v) (pc_iprove v) (pc_isupply v) (pc_shares v) (pc_stprove v)
    (pc_stsupply v) provers deactivated prover_of count (pc_dispensing v) (pc_bound v) (pc_claims v)
    (pc_slashes v) (pc_pools v).
Definition with_settings (owner : N) (d : dispensing) (v : picture) : picture :=
  Picture owner (pc_prove v) (pc_allowed v) (pc_iprove v) (pc_isupply v) (pc_shares v) (pc_stprove v)
    (pc_stsupply v) (pc_provers v) (pc_deactivated v) (pc_prover_of v) (pc_count v) d (pc_bound v) (pc_claims v)
    (pc_slashes v) (pc_pools v).
Definition with_bound (f : N -> N) (v : picture) : picture :=
  Picture (pc_owner v) (pc_prove v) (pc_allowed v) (pc_iprove v) (pc_isupply v) (pc_shares v) (pc_stprove v)
    (pc_stsupply v) (pc_provers v) (pc_deactivated v) (pc_prover_of v) (pc_count v) (pc_dispensing v) f
    (pc_claims v) (pc_slashes v) (pc_pools v).
Definition with_claims (f : N -> list unstake_claim) (v : picture) : picture :=
  Picture (pc_owner v) (pc_prove v) (pc_allowed v) (pc_iprove v) (pc_isupply v) (pc_shares v) (pc_stprove v)
    (pc_stsupply v) (pc_provers v) (pc_deactivated v) (pc_prover_of v) (pc_count v) (pc_dispensing v) (pc_bound v)
    f (pc_slashes v) (pc_pools v).
Definition with_slashes (f : N -> list slash_claim) (v : picture) : picture :=
  Picture (pc_owner v) (pc_prove v) (pc_allowed v) (pc_iprove v) (pc_isupply v) (pc_shares v) (pc_stprove v)
    (pc_stsupply v) (pc_provers v) (pc_deactivated v) (pc_prover_of v) (pc_count v) (pc_dispensing v) (pc_bound v)
    (pc_claims v) f (pc_pools v).
Definition with_pools (f : N -> escrow_pool) (v : picture) : picture :=
  Picture (pc_owner v) (pc_prove v) (pc_allowed v) (pc_iprove v) (pc_isupply v) (pc_shares v) (pc_stprove v)
    (pc_stsupply v) (pc_provers v) (pc_deactivated v) (pc_prover_of v) (pc_count v) (pc_dispensing v) (pc_bound v)
    (pc_claims v) (pc_slashes v) f.

(** ** The rules *)

Section rules.
Context (K : staking_env) (x : staking_ctx).

(** No slash request of [p] is open. *)
Definition settled (v : picture) (p : N) : Prop := forall c, c ∈ pc_slashes v p -> sc_resolved c = true.

(** $PROVE in the $iPROVE vault. *)
Definition vault (v : picture) : N := pc_prove v (ke_iprove K).

(** [n] $PROVE of [a] become a stake on [p]: they go to the $iPROVE vault, which issues $iPROVE to the vault of
    [p], which issues shares, for which [a] gets $stPROVE. *)
Record can_stake (v : picture) (a p n : N) : Prop := {
  cs_prover : pc_provers v p = true;
  cs_active : pc_deactivated v p = false;
  cs_settled : settled v p;
  cs_bound : pc_bound v a = 0 \/ pc_bound v a = p;
  cs_staker : a <> 0;
  cs_minimum : ke_min_stake K <= n;
  cs_held : n <= pc_prove v a;
  cs_iprove : issued n (vault v) (pc_isupply v) <> 0;
  cs_isupply : pc_isupply v + issued n (vault v) (pc_isupply v) < 2 ^ 208;
  cs_shares : issued (issued n (vault v) (pc_isupply v)) (pc_iprove v p) (pc_shares v p) <> 0;
  cs_stsupply : pc_stsupply v + issued (issued n (vault v) (pc_isupply v)) (pc_iprove v p) (pc_shares v p) < 2 ^ 256
}.
Definition after_stake (v : picture) (a p n : N) (allowed : N -> N -> N) : picture :=
  let i := issued n (vault v) (pc_isupply v) in
  let sh := issued i (pc_iprove v p) (pc_shares v p) in
  with_prove (moved a (ke_iprove K) n (pc_prove v)) allowed
    (with_iprove (plus p i (pc_iprove v)) (pc_isupply v + i)
      (with_stakes (plus p sh (pc_shares v)) (plus a sh (pc_stprove v)) (pc_stsupply v + sh)
        (with_bound (put a p (pc_bound v)) v))).
Definition stake_event (v : picture) (a p n : N) : staking_event :=
  let i := issued n (vault v) (pc_isupply v) in
  EvStake a p n i (issued i (pc_iprove v p) (pc_shares v p)).

(** The order in which claims are paid: the first one that is due, after which the last one takes its place. *)
Inductive due (now : N) : list unstake_claim -> list unstake_claim -> list unstake_claim -> Prop :=
| due_none l : Forall (fun c => ~ matured K now c) l -> due now l [] l
| due_last l c paid left :
    Forall (fun c => ~ matured K now c) l -> matured K now c -> due now l paid left ->
    due now (l ++ [c]) (c :: paid) left
| due_moved l c m z paid left :
    Forall (fun c => ~ matured K now c) l -> matured K now c -> due now (l ++ z :: m) paid left ->
    due now (l ++ c :: m ++ [z]) (c :: paid) left.

(** Paying the claims of [a] on [p] one after the other: each is paid its value in $iPROVE, or what is left in
    escrow, turned into $PROVE. *)
Fixpoint payments (a p : N) (claims : list unstake_claim) (v : picture) : picture * list staking_event :=
  match claims with
  | [] => (v, [])
  | c :: rest =>
      let pool := pc_pools v p in
      let i := N.min (claim_value (ep_factor pool) c) (ep_escrow pool) in
      let n := redeemed i (vault v) (pc_isupply v) in
      let v1 := with_prove (moved (ke_iprove K) a n (pc_prove v)) (pc_allowed v)
                  (with_iprove (minus (ke_self K) i (pc_iprove v)) (pc_isupply v - i)
                    (with_pools (put p (EscrowPool (ep_escrow pool - i) (ep_factor pool)) (pc_pools v)) v)) in
      let (v2, evs) := payments a p rest v1 in
      (v2, EvUnstake a p n i :: evs)
  end.

(** An empty escrow starts again with the full factor. *)
Definition refreshed (pool : escrow_pool) : escrow_pool :=
  if ep_escrow pool =? 0 then EscrowPool 0 (10 ^ 27) else pool.

(** A slash of [c] from prover [p]: taken from vault and escrow in proportion, and the $PROVE behind it
    destroyed. *)
Definition slash_total (v : picture) (p : N) : N := pc_iprove v p + ep_escrow (pc_pools v p).
Definition slash_amount (v : picture) (p : N) (c : slash_claim) : N := N.min (sc_amount c) (slash_total v p).
Definition from_escrow (v : picture) (p : N) (c : slash_claim) : N :=
  slash_amount v p c * ep_escrow (pc_pools v p) / slash_total v p.
Definition from_vault (v : picture) (p : N) (c : slash_claim) : N := slash_amount v p c - from_escrow v p c.
Definition burned_first (v : picture) (p : N) (c : slash_claim) : N :=
  redeemed (from_escrow v p c) (vault v) (pc_isupply v).
Definition burned_second (v : picture) (p : N) (c : slash_claim) : N :=
  redeemed (from_vault v p c) (vault v - burned_first v p c) (pc_isupply v - from_escrow v p c).
(** The factor is reduced in proportion to what remains; a factor of zero stands for one never used. *)
Definition factor_after (v : picture) (p : N) (c : slash_claim) : N :=
  let f := ep_factor (pc_pools v p) in
  let total := slash_total v p in
  if slash_amount v p c =? 0 then f
  else (if f =? 0 then 10 ^ 27 else f) * ((total - slash_amount v p c) * 10 ^ 27 / total) / 10 ^ 27.
(** Shares are worth less than 10^9 for 10^18. *)
Definition worthless (assets shares : N) : bool := negb (shares =? 0) && (assets * 10 ^ 18 / shares <? 10 ^ 9).

Definition after_slash (v : picture) (p i : N) (c : slash_claim) : picture :=
  let burned := burned_first v p c + burned_second v p c in
  let left := pc_iprove v p - from_vault v p c in
  with_prove (minus (ke_iprove K) burned (pc_prove v)) (pc_allowed v)
    (with_iprove (put p left (minus (ke_self K) (from_escrow v p c) (pc_iprove v))) (pc_isupply v - slash_amount v p c)
      (with_pools (put p (EscrowPool (ep_escrow (pc_pools v p) - from_escrow v p c) (factor_after v p c)) (pc_pools v))
        (with_slashes (put p (<[N.to_nat i := SlashClaim (sc_amount c) (sc_time c) true]> (pc_slashes v p)) (pc_slashes v))
          (with_registry (pc_provers v)
             (put p (pc_deactivated v p || worthless left (pc_shares v p)) (pc_deactivated v))
             (pc_prover_of v) (pc_count v) v)))).

(** Rewards earned and not yet dispensed. *)
Definition earned_now (d : dispensing) : N := dp_earned d + (kx_time x - dp_since d) * dp_rate d.

(** [rule c v w evs]: call [c] is accepted in state [v], leads to [w] and emits [evs]. *)
Inductive rule (v : picture) : staking_call -> picture -> list staking_event -> Prop :=
| r_stake p n : let a := kx_sender x in
    can_stake v a p n -> may_spend v a (ke_self K) n ->
    rule v (KStake p n) (after_stake v a p n (spent a (ke_self K) n (pc_allowed v))) [stake_event v a p n]
| r_permit p a n :
    can_stake v a p n -> pc_allowed v a p = n \/ kx_permit_valid x = true ->
    rule v (KPermitAndStake p a n)
      (after_stake v a p n (spent a p n (put a (put p n (pc_allowed v a)) (pc_allowed v)))) [stake_event v a p n]
| r_request n : let a := kx_sender x in let p := pc_bound v a in
    let i := redeemed n (pc_iprove v p) (pc_shares v p) in
    let pool := pc_pools v p in
    let factor := if ep_factor pool =? 0 then 10 ^ 27 else ep_factor pool in
    n <> 0 -> n <= pc_stprove v a -> p <> 0 -> settled v p ->
    N.of_nat (length (pc_claims v a)) < ke_max_requests K -> N.of_nat (length (pc_claims v a)) < 2 ^ 64 ->
    rule v (KRequestUnstake n)
      (with_iprove (moved p (ke_self K) i (pc_iprove v)) (pc_isupply v)
        (with_stakes (minus p n (pc_shares v)) (minus a n (pc_stprove v)) (pc_stsupply v - n)
          (with_claims (put a (pc_claims v a ++ [UnstakeClaim i factor (kx_time x)]) (pc_claims v))
            (with_pools (put p (EscrowPool (ep_escrow pool + i) factor) (pc_pools v)) v))))
      [EvUnstakeRequest a p n i]
| r_finish a paid left w evs : let p := pc_bound v a in
    p <> 0 -> pc_claims v a <> [] -> settled v p ->
    due (kx_time x) (pc_claims v a) paid left -> payments a p paid v = (w, evs) ->
    rule v (KFinishUnstake a)
      (with_claims (put a left (pc_claims w))
        (with_pools (put p (refreshed (pc_pools w p)) (pc_pools w))
          (with_bound (if (pc_stprove v a =? 0) && (length left =? 0)%nat then put a 0 (pc_bound w) else pc_bound w) w)))
      evs
| r_request_slash p n :
    kx_sender x = ke_vapp K -> pc_provers v p = true -> n <> 0 -> N.of_nat (length (pc_slashes v p)) < 2 ^ 64 ->
    rule v (KRequestSlash p n)
      (with_slashes (put p (pc_slashes v p ++ [SlashClaim n (kx_time x) false]) (pc_slashes v)) v)
      [EvSlashRequest p n (N.of_nat (length (pc_slashes v p)))]
| r_cancel_slash p i c :
    pc_provers v p = true -> pc_slashes v p !! N.to_nat i = Some c -> sc_resolved c = false -> cancellable K x c ->
    rule v (KCancelSlash p i)
      (with_slashes (put p (<[N.to_nat i := SlashClaim (sc_amount c) (sc_time c) true]> (pc_slashes v p)) (pc_slashes v)) v)
      [EvSlashCancel p (sc_amount c) i]
| r_finish_slash p i c :
    kx_sender x = pc_owner v -> pc_provers v p = true -> pc_slashes v p !! N.to_nat i = Some c ->
    sc_resolved c = false ->
    rule v (KFinishSlash p i) (after_slash v p i c)
      [EvSlash p (burned_first v p c + burned_second v p c) (slash_amount v p c) i]
| r_dispense n : let d := pc_dispensing v in
    let m := if n =? 2 ^ 256 - 1 then earned_now d - dp_distributed d else n in
    kx_sender x = dp_dispenser d -> m <> 0 -> dp_distributed d + m <= earned_now d ->
    dp_since d <= kx_time x -> m <= pc_prove v (ke_self K) ->
    rule v (KDispense n)
      (with_prove (moved (ke_self K) (ke_iprove K) m (pc_prove v)) (pc_allowed v)
        (with_settings (pc_owner v)
          (Dispensing (dp_dispenser d) (dp_rate d) (dp_since d) (dp_earned d) (dp_distributed d + m)) v))
      [EvDispense m]
| r_set_dispenser a : let d := pc_dispensing v in
    kx_sender x = pc_owner v ->
    rule v (KSetDispenser a)
      (with_settings (pc_owner v) (Dispensing a (dp_rate d) (dp_since d) (dp_earned d) (dp_distributed d)) v) []
| r_update_rate rate : let d := pc_dispensing v in
    kx_sender x = pc_owner v -> dp_since d <= kx_time x ->
    rule v (KUpdateRate rate)
      (with_settings (pc_owner v) (Dispensing (dp_dispenser d) rate (kx_time x) (earned_now d) (dp_distributed d)) v) []
| r_create_prover bips : let o := kx_sender x in
    let n := (pc_count v + 1) mod 2 ^ 256 in
    let p := ke_create2 K o n bips in
    bips <= 10000 -> pc_prover_of v o = 0 -> pc_provers v p = false -> kx_vapp_accepts x = true ->
    rule v (KCreateProver bips)
      (with_registry (put p true (pc_provers v)) (pc_deactivated v) (put o p (pc_prover_of v)) n v) []
| r_reward p n : let i := issued n (vault v) (pc_isupply v) in
    pc_provers v p = true -> n <= pc_prove v (ke_vapp K) -> may_spend v (ke_vapp K) (ke_iprove K) n ->
    pc_isupply v + i < 2 ^ 208 ->
    rule v (KReward p n)
      (with_prove (moved (ke_vapp K) (ke_iprove K) n (pc_prove v))
         (spent (ke_vapp K) (ke_iprove K) n (pc_allowed v))
        (with_iprove (plus p i (pc_iprove v)) (pc_isupply v + i) v)) []
| r_transfer_ownership a :
    kx_sender x = pc_owner v -> a <> 0 ->
    rule v (KTransferOwnership a) (with_settings a (pc_dispensing v) v) []
| r_renounce_ownership :
    kx_sender x = pc_owner v -> rule v KRenounceOwnership (with_settings 0 (pc_dispensing v) v) [].

(** Amounts and times that fit in the words of the machine. *)
Record moderate (v : picture) : Prop := {
  mo_vault : vault v < 2 ^ 256;
  mo_stsupply : pc_stsupply v + 1 < 2 ^ 256;
  mo_time : kx_time x < 2 ^ 256;
  mo_claims : forall a c, c ∈ pc_claims v a ->
    uc_time c + ke_unstake_period K < 2 ^ 256 /\ claim_value (ep_factor (pc_pools v (pc_bound v a))) c < 2 ^ 256;
  mo_price : forall p, pc_iprove v p * 10 ^ 18 < 2 ^ 256;
  mo_earned : earned_now (pc_dispensing v) < 2 ^ 256
}.

End rules.
