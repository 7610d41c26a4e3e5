(** Numbers that arrive as text: the amounts of the ledger's messages (crates/vapp/src/state.rs 305-308 and
    similar), a balance (crates/network/rpc/src/fetch.rs) and a price of $PROVE
    (crates/network/pricing/src/provider.rs).

    [U256::from_str] is that of ruint 1.17, and [OffsetDateTime::from_unix_timestamp] that of time 0.3.41 without
    its feature [large-dates].  A text is the list of its characters; for the ledger, of its UTF-8 bytes, which
    makes no difference, as no byte of a longer character is a digit. *)
From Verif Require Export Env Retry Pricing.
Open Scope N_scope.
Open Scope flow_scope.

(** ** Amounts *)

(** The value of one character: digits, and letters of either case ([U256::from_str_radix] of ruint, called at
    crates/vapp/src/state.rs 307). *)
Definition digit_value (c : N) : option N :=
  if (48 <=? c) && (c <=? 57) then Some (c - 48)
  else if (97 <=? c) && (c <=? 122) then Some (c - 97 + 10)
  else if (65 <=? c) && (c <=? 90) then Some (c - 65 + 10)
  else None.
(** The digits up to the end; an underscore is skipped, and the number must always fit in 256 bits
    ([U256::from_str_radix] and [from_base_be] of ruint, called at crates/vapp/src/state.rs 307). *)
Fixpoint from_str_radix (radix : N) (text : list N) (acc : N) : option N :=
  match text with
  | [] => Some acc
  | c :: rest =>
      if c =? 95 then from_str_radix radix rest acc
      else
        match digit_value c with
        | Some d =>
            if radix <=? d then None
            else let acc' := acc * radix + d in if two256 <=? acc' then None else from_str_radix radix rest acc'
        | None => None
        end
  end.
(** The radix announced by the second character of a prefix ([U256::from_str] of ruint, called at
    crates/vapp/src/state.rs 307): "x", "o", "b" in either case. *)
Definition prefix_radix (c : N) : option N :=
  if (c =? 120) || (c =? 88) then Some 16
  else if (c =? 111) || (c =? 79) then Some 8
  else if (c =? 98) || (c =? 66) then Some 2
  else None.
(** [str::parse::<U256>], crates/vapp/src/state.rs 307, 415, 423, 521, 528, 730-733, 748;
    crates/network/rpc/src/fetch.rs 29. *)
Definition u256_from_str (text : list N) : option N :=
  match text with
  | z :: c :: rest =>
      match (if z =? 48 then prefix_radix c else None) with
      | Some radix => from_str_radix radix rest 0
      | None => from_str_radix 10 text 0
      end
  | _ => from_str_radix 10 text 0
  end.

(** ** A balance *)

(** The request [GetBalance] and its answer, crates/network/rpc/src/fetch.rs 20-22. *)
Inductive balance_event : Type := QBalance (address : bytes) (r : result (list N) rpc_error).
(** The errors of [fetch_balance], crates/network/rpc/src/fetch.rs 26, 29. *)
Inductive balance_error : Type := BalanceRpc (e : rpc_error) | BalanceText.
(** [fetch_balance], crates/network/rpc/src/fetch.rs 14-30; [None] if fuel runs out. *)
Definition fetch_balance (fuel : nat) (address : bytes)
    : flow (timed balance_event) (option (result N balance_error)) :=
  ask! r := with_retry fuel (ask (QBalance address)) in
  Ret (match r with
       | Some (Ok text) => Some (match u256_from_str text with Some n => Ok n | None => Err BalanceText end)
       | Some (Err e) => Some (Err (BalanceRpc e))
       | None => None
       end).

(** ** A price *)

(** [ProvePrice], crates/network/pricing/src/provider.rs 6-15; the time is in seconds since 1970. *)
Record prove_price : Type := ProvePrice { pp_usd_micros : N; pp_as_of : Z }.
(** The two errors, crates/network/pricing/src/error.rs 4-18, provider.rs 20-22. *)
Inductive reading_error : Type := BadPrice (e : price_error) | InvalidTimestamp (t : Z).
(** [OffsetDateTime::from_unix_timestamp] (time), called at crates/network/pricing/src/provider.rs 21: the years
    -9999 to 9999. *)
Definition from_unix_timestamp (t : Z) : option Z :=
  if ((-377705116800 <=? t) && (t <=? 253402300799))%Z then Some t else None.
(** [ProvePrice::parse], crates/network/pricing/src/provider.rs 19-24. *)
Definition parse_prove_price (price : list N) (last_updated : Z) : result prove_price reading_error :=
  match parse_usd_micros price with
  | Err e => Err (BadPrice e)
  | Ok usd_micros =>
      match from_unix_timestamp last_updated with
      | Some as_of => Ok (ProvePrice usd_micros as_of)
      | None => Err (InvalidTimestamp last_updated)
      end
  end.
