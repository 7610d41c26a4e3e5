(** A small use of the artifact store, for the examples. *)
From Verif Require Export Proofs_ArtifactStore ToyArtifacts.
Open Scope list_scope.
Open Scope N_scope.

(** A number is written as two bytes; example only. *)
Definition toy_codec : codec N :=
  Codec (fun x => if x <? 256 then Some [x; 1] else None)
        (fun d => match d with [x; 1] => Some x | _ => None end).
(** Two buckets, a name, and keys; example only. *)
Definition toy_b1 : list N := [98; 49].
(** Example only. *)
Definition toy_b2 : list N := [98; 50].
(** Example only. *)
Definition toy_id : list N := [97].
(** The key of the program; example only. *)
Definition toy_kp : list N := get_s3_key ProgramArtifact toy_id.
(** The key of the input; example only. *)
Definition toy_ks : list N := get_s3_key StdinArtifact toy_id.

(** Seven calls, the last two of which are stopped early; example only. *)
Definition toy_store_calls : list (call N) :=
  [Upload toy_id toy_b1 ProgramArtifact 7;
   Copy toy_id ProgramArtifact toy_b1 toy_b2;
   DownloadItem KindProgram toy_id toy_b2;
   UploadRaw toy_id toy_b1 StdinArtifact [9];
   DownloadRawFromUri toy_id (Some (ParsedUri [115; 51] (Some toy_b1))) ProgramArtifact;
   UploadRaw toy_id toy_b1 ProgramArtifact [5];
   DownloadItem KindProgram toy_id toy_b2;
   Upload toy_id toy_b2 ProgramArtifact 300].
(** Their requests; example only. *)
Definition toy_store_history : list (nat * request) :=
  [(5%nat, Put toy_b1 toy_kp [5] false);
   (0%nat, Put toy_b1 toy_kp [7; 1] true);
   (1%nat, Head toy_b2 toy_kp None);
   (3%nat, Put toy_b1 toy_ks [9] true);
   (1%nat, Get toy_b1 toy_kp (AData [7; 1]));
   (2%nat, Get toy_b2 toy_kp AFail);
   (6%nat, Get toy_b2 toy_kp AFail);
   (1%nat, Put toy_b2 toy_kp [7; 1] true);
   (2%nat, Get toy_b2 toy_kp (AData [7; 1]));
   (4%nat, Get toy_b1 toy_kp (AData [7; 1]))].
(** What is stored at the end; example only. *)
Definition toy_store_end : store :=
  <[(toy_b2, toy_kp) := [7; 1] ]> (<[(toy_b1, toy_ks) := [9] ]> (<[(toy_b1, toy_kp) := [7; 1] ]> (<[(toy_b1, toy_kp) := [5] ]> ∅))).

Ltac run_toy := vm_compute; repeat first [split; reflexivity | do 2 eexists; split; [reflexivity|]].
Ltac begin_toy := vm_compute; repeat first [reflexivity | right; do 2 eexists; split; [reflexivity|] | left; reflexivity].

Lemma toy_store_serves : serves ∅ toy_store_history toy_store_end.
Proof.
  unfold toy_store_history, toy_store_end.
  econstructor; [apply sv_put_unknown|]. econstructor; [apply sv_put|]. econstructor; [apply sv_head_fail|].
  econstructor; [apply sv_put|]. econstructor; [apply sv_get; vm_compute; reflexivity|].
  econstructor; [apply sv_get_fail|]. econstructor; [apply sv_get_fail|]. econstructor; [apply sv_put|].
  econstructor; [apply sv_get; vm_compute; reflexivity|]. econstructor; [apply sv_get; vm_compute; reflexivity|].
  constructor.
Qed.

Lemma toy_store_used : used toy_codec toy_store_calls ∅ toy_store_history toy_store_end.
Proof.
  split; [exact toy_store_serves| |].
  - intros i r H. unfold toy_store_history in H.
    repeat (apply elem_of_cons in H; destruct H as [[= -> ->]|H]; [eexists; reflexivity|]).
    now apply elem_of_nil in H.
  - intros i c H. unfold toy_store_calls in H.
    do 8 (destruct i as [|i]; [injection H as <-; begin_toy|]). discriminate.
Qed.

Lemma toy_store_ended :
  ended toy_codec toy_store_calls toy_store_history 0 (Done true) /\
  ended toy_codec toy_store_calls toy_store_history 1 (Done true) /\
  ended toy_codec toy_store_calls toy_store_history 2 (Item (Some 7)) /\
  ended toy_codec toy_store_calls toy_store_history 4 (Data (DOk [7; 1])) /\
  ended toy_codec toy_store_calls toy_store_history 5 (Done false) /\
  ended toy_codec toy_store_calls toy_store_history 7 (Done false).
Proof.
  repeat split; (eexists; split; [reflexivity|]; run_toy).
Qed.

(** The program is uploaded after the other upload of it, and before both downloads. *)
Lemma toy_store_before :
  before toy_store_history 5 0 /\ before toy_store_history 0 4 /\ before toy_store_history 7 0 /\
  (forall j c, j <> 0%nat -> toy_store_calls !! j = Some c -> writes c toy_b1 ProgramArtifact toy_id -> before toy_store_history j 0).
Proof.
  assert (H50 : before toy_store_history 5 0) by (exists (take 1 toy_store_history), (drop 1 toy_store_history); vm_compute; auto).
  split; [exact H50|]. split; [exists (take 2 toy_store_history), (drop 2 toy_store_history); vm_compute; auto|].
  split; [exists [], toy_store_history; vm_compute; auto|].
  intros j c Hne H Hw. unfold toy_store_calls in H. destruct j as [|j]; [easy|].
  do 7 (destruct j as [|j]; [injection H as <-; first [exact H50|exfalso; destruct Hw as [(? & ?)|[(? & ?)|(? & ?)]]; discriminate]|]).
  discriminate.
Qed.

(** Nobody else writes the copy. *)
Lemma toy_store_copy_alone : forall j c, j <> 1%nat -> toy_store_calls !! j = Some c ->
  writes c toy_b2 ProgramArtifact toy_id -> of_call j toy_store_history = [].
Proof.
  intros j c Hne H Hw. unfold toy_store_calls in H. destruct j as [|j]; [injection H as <-; exfalso; destruct Hw as [(? & ?)|[(? & ?)|(? & ?)]]; discriminate|].
  destruct j as [|j]; [easy|].
  do 6 (destruct j as [|j]; [injection H as <-; first [vm_compute; reflexivity|exfalso; destruct Hw as [(? & ?)|[(? & ?)|(? & ?)]]; discriminate]|]).
  discriminate.
Qed.

(** ** A copy between two buckets by itself; a new one; a failed upload *)

(** Example only. *)
Definition toy_copy : list (call N) := [Copy toy_id ProgramArtifact toy_b1 toy_b2].
(** Two programs of the same name; example only. *)
Definition toy_two : store := <[(toy_b1, toy_kp) := [7; 1] ]> (<[(toy_b2, toy_kp) := [8; 1] ]> ∅).
(** Example only. *)
Definition toy_one : store := <[(toy_b1, toy_kp) := [7; 1] ]> ∅.

Lemma one_call_used c s h s' : serves s (map (pair 0%nat) h) s' -> begun (program toy_codec c) h ->
  used toy_codec [c] s (map (pair 0%nat) h) s'.
Proof.
  intros Hs Hb.
  assert (E : of_call 0 (map (pair 0%nat) h) = h).
  { clear. induction h as [|r h IH]; [reflexivity|]. cbn [map]. unfold of_call. rewrite filter_cons_True by reflexivity.
    cbn [map snd]. f_equal. exact IH. }
  split; [exact Hs| |].
  - intros i r H. apply elem_of_list_fmap in H. destruct H as (x & [= -> ->] & _). eexists. reflexivity.
  - intros [|i] c0 H; [|discriminate]. injection H as <-. rewrite E. exact Hb.
Qed.

Lemma copy_equal_refuted_proof :
  exists (calls : list (call N)) s h s' id t src dst d d',
    used toy_codec calls s h s' /\ calls = [Copy id t src dst] /\ ended toy_codec calls h 0 (Done true) /\
    holds s' src t id d /\ holds s' dst t id d' /\ d <> d'.
Proof.
  exists toy_copy, toy_two, (map (pair 0%nat) [Head toy_b2 toy_kp (Some 2%Z)]), toy_two, toy_id, ProgramArtifact, toy_b1, toy_b2, [7; 1], [8; 1].
  split; [|split; [reflexivity|split; [|split; [vm_compute; reflexivity|split; [vm_compute; reflexivity|discriminate]]]]].
  - apply one_call_used; [|begin_toy]. econstructor; [|constructor].
    change 2%Z with (Z.of_nat (length [8; 1])). apply sv_head. vm_compute. reflexivity.
  - eexists; split; [reflexivity|]; run_toy.
Qed.

Lemma copy_keeps_refuted_proof :
  exists (calls : list (call N)) s h s' id t src dst d d',
    used toy_codec calls s h s' /\ calls = [Copy id t src dst] /\ ended toy_codec calls h 0 (Done true) /\
    holds s dst t id d /\ holds s' dst t id d' /\ d <> d'.
Proof.
  exists toy_copy, toy_two, (map (pair 0%nat) [Head toy_b2 toy_kp None; Get toy_b1 toy_kp (AData [7; 1]); Put toy_b2 toy_kp [7; 1] true]),
    (<[(toy_b2, toy_kp) := [7; 1] ]> toy_two), toy_id, ProgramArtifact, toy_b1, toy_b2, [8; 1], [7; 1].
  split; [|split; [reflexivity|split; [|split; [vm_compute; reflexivity|split; [vm_compute; reflexivity|discriminate]]]]].
  - apply one_call_used; [|begin_toy]. econstructor; [apply sv_head_fail|].
    econstructor; [apply sv_get; vm_compute; reflexivity|]. econstructor; [apply sv_put|constructor].
  - eexists; split; [reflexivity|]; run_toy.
Qed.

Lemma failed_upload_refuted_proof :
  exists (calls : list (call N)) s h s' id t bucket d d',
    used toy_codec calls s h s' /\ calls = [UploadRaw id bucket t d'] /\ ended toy_codec calls h 0 (Done false) /\
    holds s bucket t id d /\ holds s' bucket t id d' /\ d <> d'.
Proof.
  exists [UploadRaw toy_id toy_b1 ProgramArtifact [5]], toy_one, (map (pair 0%nat) [Put toy_b1 toy_kp [5] false]),
    (<[(toy_b1, toy_kp) := [5] ]> toy_one), toy_id, ProgramArtifact, toy_b1, [7; 1], [5].
  split; [|split; [reflexivity|split; [|split; [vm_compute; reflexivity|split; [vm_compute; reflexivity|discriminate]]]]].
  - apply one_call_used; [|begin_toy]. econstructor; [apply sv_put_unknown|constructor].
  - eexists; split; [reflexivity|]; run_toy.
Qed.

Lemma toy_copy_new :
  used toy_codec toy_copy toy_one
    (map (pair 0%nat) [Head toy_b2 toy_kp None; Get toy_b1 toy_kp (AData [7; 1]); Put toy_b2 toy_kp [7; 1] true])
    (<[(toy_b2, toy_kp) := [7; 1] ]> toy_one) /\
  ended toy_codec toy_copy
    (map (pair 0%nat) [Head toy_b2 toy_kp None; Get toy_b1 toy_kp (AData [7; 1]); Put toy_b2 toy_kp [7; 1] true]) 0 (Done true) /\
  (forall d, ~ holds toy_one toy_b2 ProgramArtifact toy_id d).
Proof.
  split; [|split].
  - apply one_call_used; [|begin_toy]. econstructor; [apply sv_head_fail|].
    econstructor; [apply sv_get; vm_compute; reflexivity|]. econstructor; [apply sv_put|constructor].
  - eexists; split; [reflexivity|]; run_toy.
  - intros d H. vm_compute in H. discriminate.
Qed.

(** ** A parallel download while the artifact is replaced *)

(** Four bytes and four others; example only. *)
Definition toy_old : bytes := [1; 2; 3; 4].
(** Example only. *)
Definition toy_new : bytes := [5; 6; 7; 8].
(** The first half is served before the upload and the second after it; example only. *)
Definition toy_torn_server (first last n : nat) : attempt :=
  AData (range (if (first =? 0)%nat then toy_old else toy_new) first last).

Lemma torn_refuted_proof :
  exists (calls : list (call N)) s h s' bucket t id old new server chunk concurrency rs arrivals result,
    used toy_codec calls s h s' /\ calls = [UploadRaw id bucket t new] /\ ended toy_codec calls h 0 (Done true) /\
    holds s bucket t id old /\ holds s' bucket t id new /\ length old = length new /\
    answers_in s h s' bucket t id server /\ (0 < chunk < length old)%nat /\ (0 < concurrency)%nat /\
    tasks server chunk (length old) concurrency = Some rs /\ interleaving (map fst rs) arrivals /\
    download_s3_par chunk server AFail (Z.of_nat (length old)) concurrency arrivals = DOk result /\
    forall x, moment s h s' x -> ~ holds x bucket t id result.
Proof.
  set (s := <[(toy_b1, toy_kp) := toy_old]> (∅ : store)). set (s' := <[(toy_b1, toy_kp) := toy_new]> s).
  assert (Hs : serves s (map (pair 0%nat) [Put toy_b1 toy_kp toy_new true]) s') by (econstructor; [apply sv_put|constructor]).
  exists [UploadRaw toy_id toy_b1 ProgramArtifact toy_new], s, (map (pair 0%nat) [Put toy_b1 toy_kp toy_new true]), s',
    toy_b1, ProgramArtifact, toy_id, toy_old, toy_new, toy_torn_server, 2%nat, 2%nat,
    [([(0%nat, [1; 2])], true); ([(1%nat, [7; 8])], true)], [(0%nat, [1; 2]); (1%nat, [7; 8])], [1; 2; 7; 8].
  split; [apply one_call_used; [exact Hs|begin_toy]|]. split; [reflexivity|].
  split; [eexists; split; [reflexivity|]; run_toy|]. split; [vm_compute; reflexivity|]. split; [vm_compute; reflexivity|].
  split; [reflexivity|]. split.
  { intros first last n data [= <-]. destruct (first =? 0)%nat.
    - exists s, toy_old. split; [exists [], (map (pair 0%nat) [Put toy_b1 toy_kp toy_new true]); split; [reflexivity|]; split; [constructor|exact Hs]|].
      split; [vm_compute; reflexivity|reflexivity].
    - exists s', toy_new. split; [exists (map (pair 0%nat) [Put toy_b1 toy_kp toy_new true]), []; split; [reflexivity|]; split; [exact Hs|constructor]|].
      split; [vm_compute; reflexivity|reflexivity]. }
  split; [cbn; lia|]. split; [lia|]. split; [vm_compute; reflexivity|]. split.
  { apply (il_step [] _ [] [[(1%nat, [7; 8])]]). apply (il_step [[]] _ [] []). apply il_done. repeat constructor. }
  split; [vm_compute; reflexivity|].
  intros x (h1 & h2 & E & H1 & H2) Hx.
  destruct h1 as [|e [|e' h1]]; cbn in E.
  - inversion H1; subst. vm_compute in Hx. discriminate.
  - injection E as <- <-. inversion H2; subst. vm_compute in Hx. discriminate.
  - discriminate.
Qed.

(** While only another artifact is uploaded. *)
Lemma toy_quiet :
  let s := <[(toy_b1, toy_kp) := toy_file]> (∅ : store) in
  let h := map (pair 0%nat) [Put toy_b1 toy_ks [9] true] in
  let s' := <[(toy_b1, toy_ks) := [9] ]> s in
  used toy_codec [UploadRaw toy_id toy_b1 StdinArtifact [9]] s h s' /\
  holds s toy_b1 ProgramArtifact toy_id toy_file /\ answers_in s h s' toy_b1 ProgramArtifact toy_id toy_server /\
  (forall i c, [UploadRaw (X:=N) toy_id toy_b1 StdinArtifact [9]] !! i = Some c -> writes c toy_b1 ProgramArtifact toy_id -> of_call i h = []).
Proof.
  intros s h s'.
  assert (Hs : serves s h s') by (econstructor; [apply sv_put|constructor]).
  split; [apply one_call_used; [exact Hs|begin_toy]|]. split; [vm_compute; reflexivity|]. split.
  - intros first last n data E. apply toy_server_honest in E. subst data. exists s, toy_file.
    split; [exists [], h; split; [reflexivity|]; split; [constructor|exact Hs]|]. split; [vm_compute; reflexivity|reflexivity].
  - intros [|i] c H Hw; [|discriminate]. injection H as <-. destruct Hw as [(? & ?)|[(? & ?)|(? & ?)]]; discriminate.
Qed.

(** ** Empty artifacts *)

Lemma empty_parallel_refuted_proof :
  exists (calls : list (call N)) s h s' bucket t id,
    used toy_codec calls s h s' /\ calls = [DownloadRaw id bucket t] /\ ended toy_codec calls h 0 (Data (DOk [])) /\
    holds s bucket t id [] /\
    forall chunk server concurrency arrivals, download_s3_par chunk server (AData []) 0 concurrency arrivals = DErr.
Proof.
  set (s := <[(toy_b1, toy_kp) := []]> (∅ : store)).
  exists [DownloadRaw toy_id toy_b1 ProgramArtifact], s, (map (pair 0%nat) [Get toy_b1 toy_kp (AData [])]), s,
    toy_b1, ProgramArtifact, toy_id.
  split; [apply one_call_used; [|begin_toy]; econstructor; [apply sv_get; vm_compute; reflexivity|constructor]|].
  split; [reflexivity|]. split; [eexists; split; [reflexivity|]; run_toy|]. split; [vm_compute; reflexivity|]. reflexivity.
Qed.

(** ** Giving up *)

(** Five failed requests; example only. *)
Definition toy_failing : list (nat * request) := map (pair 0%nat) (replicate 5 (Get toy_b2 toy_kp ABodyFail)).
Lemma toy_failing_ended :
  ended toy_codec [DownloadItem KindProgram toy_id toy_b2] toy_failing 0 (Item None) /\
  reads (X:=N) (DownloadItem KindProgram toy_id toy_b2) toy_b2 ProgramArtifact toy_id /\
  (forall d k, Get toy_b2 k (AData d) ∈ of_call 0 toy_failing -> exists x, deserialize toy_codec d = Some x).
Proof.
  split; [eexists; split; [reflexivity|]; run_toy|]. split; [constructor|].
  intros d k H. apply of_call_in in H. unfold toy_failing in H. cbn [replicate map] in H.
  repeat (apply elem_of_cons in H; destruct H as [H|H]; [discriminate|]). now apply elem_of_nil in H.
Qed.

Lemma C94_example_proof :
  used toy_codec toy_store_calls ∅ toy_store_history toy_store_end /\
  ended toy_codec toy_store_calls toy_store_history 0 (Done true) /\
  uploads toy_codec (Upload toy_id toy_b1 ProgramArtifact 7) toy_b1 ProgramArtifact toy_id [7; 1] /\
  (forall j c, j <> 0%nat -> toy_store_calls !! j = Some c -> writes c toy_b1 ProgramArtifact toy_id -> before toy_store_history j 0) /\
  before toy_store_history 5 0 /\ ended toy_codec toy_store_calls toy_store_history 5 (Done false) /\
  ended toy_codec toy_store_calls toy_store_history 1 (Done true) /\
  (forall j c, j <> 1%nat -> toy_store_calls !! j = Some c -> writes c toy_b2 ProgramArtifact toy_id -> of_call j toy_store_history = []) /\
  ended toy_codec toy_store_calls toy_store_history 2 (Item (Some 7)) /\
  reads (X:=N) (DownloadItem KindProgram toy_id toy_b2) toy_b2 ProgramArtifact toy_id /\
  before toy_store_history 0 4 /\ ended toy_codec toy_store_calls toy_store_history 4 (Data (DOk [7; 1])) /\
  reads (X:=N) (DownloadRawFromUri toy_id (Some (ParsedUri [115; 51] (Some toy_b1))) ProgramArtifact) toy_b1 ProgramArtifact toy_id.
Proof.
  destruct toy_store_ended as (H0 & H1 & H2 & H4 & H5 & _). destruct toy_store_before as (H50 & H04 & _ & Hw).
  repeat (split; [first [exact toy_store_used|exact H0|exact H1|exact H2|exact H4|exact H5|exact H50|exact H04|exact Hw|exact toy_store_copy_alone|
    constructor; fail|right; exists 7; split; reflexivity]|]).
  constructor. reflexivity.
Qed.
