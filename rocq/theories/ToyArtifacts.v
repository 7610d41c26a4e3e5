(** A small file and servers, for the examples about downloads. *)
From Verif Require Export ArtifactsFacts.
Open Scope nat_scope.

(** Eleven bytes; example only. *)
Definition toy_file : bytes := [10; 11; 12; 13; 14; 15; 16; 17; 18; 19; 20]%N.
(** A server that fails the first two times for the range that starts at 4; example only. *)
Definition toy_server (first last n : nat) : attempt :=
  if (first =? 4) && (n <? 2) then AFail else AData (range toy_file first last).
(** A server that always fails for that range; example only. *)
Definition toy_broken (first last n : nat) : attempt :=
  if first =? 4 then AFail else AData (range toy_file first last).
(** A server that leaves out the last byte of that range; example only. *)
Definition toy_short (first last n : nat) : attempt :=
  if first =? 4 then AData (range toy_file first (last - 1)) else AData (range toy_file first last).
(** A server that ignores ranges; example only. *)
Definition toy_all (first last n : nat) : attempt := AData toy_file.
(** Two tasks, the chunks of which arrive as 1, 0, 2; example only. *)
Definition toy_arrivals : list (nat * bytes) :=
  [(1, [14; 15; 16; 17]%N); (0, [10; 11; 12; 13]%N); (2, [18; 19; 20]%N)].

Lemma toy_server_honest : honest toy_file toy_server.
Proof. intros f l n d. unfold toy_server. destruct ((f =? 4) && (n <? 2)); congruence. Qed.
Lemma toy_broken_honest : honest toy_file toy_broken.
Proof. intros f l n d. unfold toy_broken. destruct (f =? 4); congruence. Qed.

(** With a limit of three there are three tasks of one chunk each. *)
Lemma toy_interleaving :
  exists rs, tasks toy_server 4 11 3 = Some rs /\ interleaving (map fst rs) toy_arrivals.
Proof.
  eexists. split; [vm_compute; reflexivity|]. cbn [map fst]. unfold toy_arrivals.
  apply (il_step [[(0, [10; 11; 12; 13]%N)]] _ [] [[(2, [18; 19; 20]%N)]]).
  apply (il_step [] _ [] [[]; [(2, [18; 19; 20]%N)]]).
  apply (il_step [[]; []] _ [] []). apply il_done. repeat constructor.
Qed.
