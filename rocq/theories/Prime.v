(** The example guest program, programs/examples/is-prime/src/main.rs.  The file
    programs/examples/fibonacci/src/main.rs has the same contents, so this models both.

    [u64] arithmetic wraps around, as in the release profile in which guests are built (no Cargo.toml of the
    repository sets [overflow-checks]).  Reading the input and committing the result are the zkVM's. *)
From Verif Require Export Base.
Open Scope N_scope.

(** How a run of the loop ends; [Unfinished] if it needs more rounds than allowed.
    (programs/examples/is-prime/src/main.rs 22-29.) *)
Inductive verdict : Type := Returns (b : bool) | Panics | Unfinished.

(** [i * i], [i + 2] and [i += 6] on [u64], programs/examples/is-prime/src/main.rs 22-27. *)
Definition wmul (a b : N) : N := (a * b) mod two64.
(** [i + 2] and [i += 6] on [u64], programs/examples/is-prime/src/main.rs 23-27. *)
Definition wadd (a b : N) : N := (a + b) mod two64.

(** The [while] loop, programs/examples/is-prime/src/main.rs 22-28; a remainder by zero panics. *)
Fixpoint trial (rounds : nat) (n i : N) : verdict :=
  match rounds with
  | O => Unfinished
  | S rounds' =>
      if wmul i i <=? n then
        if i =? 0 then Panics
        else if n mod i =? 0 then Returns false
        else if wadd i 2 =? 0 then Panics
        else if n mod (wadd i 2) =? 0 then Returns false
        else trial rounds' n (wadd i 6)
      else Returns true
  end.

(** [is_prime], programs/examples/is-prime/src/main.rs 12-30. *)
Definition is_prime (rounds : nat) (n : N) : verdict :=
  if n <=? 1 then Returns false
  else if n <=? 3 then Returns true
  else if (n mod 2 =? 0) || (n mod 3 =? 0) then Returns false
  else trial rounds n 5.

(** ** Vocabulary *)

(** The mathematical notion; it models nothing. *)
Definition prime_number (n : N) : Prop := 1 < n /\ forall d, (d | n) -> d = 1 \/ d = n.
