(** Facts about the artifact store. *)
From Verif Require Export ArtifactStoreSpec ArtifactsFacts.
Open Scope list_scope.

(** ** Keys *)

Lemma key_folder t id : get_s3_key t id = folder t ++ slash :: id.
Proof. destruct t; reflexivity. Qed.

Lemma holds_key s b t id d : holds s b t id d <-> s !! (b, get_s3_key t id) = Some d.
Proof. unfold holds. rewrite key_folder. reflexivity. Qed.

(** ** Histories *)

Lemma serves_app s h1 h2 s' : serves s (h1 ++ h2) s' <-> exists x, serves s h1 x /\ serves x h2 s'.
Proof.
  split.
  - revert s. induction h1 as [|[i r] h1 IH]; intros s H; cbn [app] in *.
    + exists s. split; [constructor|exact H].
    + inversion H as [|? s1 ? ? ? ? Hr Hh]; subst. apply IH in Hh. destruct Hh as (x & H1 & H2).
      exists x. split; [econstructor; eauto|exact H2].
  - intros (x & H1 & H2). induction H1 as [|s s1 x i r h Hr Hh IH]; cbn [app]; [exact H2|].
    econstructor; eauto.
Qed.

Lemma serves_snoc s h i r s' : serves s (h ++ [(i, r)]) s' <-> exists x, serves s h x /\ served x r s'.
Proof.
  rewrite serves_app. split.
  - intros (x & H1 & H2). inversion H2 as [|? s1 ? ? ? ? Hr Hh]; subst. inversion Hh; subst. eauto.
  - intros (x & H1 & H2). exists x. split; [exact H1|]. econstructor; [exact H2|constructor].
Qed.

Lemma of_call_app i h1 h2 : of_call i (h1 ++ h2) = of_call i h1 ++ of_call i h2.
Proof. unfold of_call. now rewrite filter_app, map_app. Qed.

Lemma of_call_in i r h : r ∈ of_call i h <-> (i, r) ∈ h.
Proof.
  unfold of_call. rewrite elem_of_list_fmap. split.
  - intros ([j x] & -> & H). apply elem_of_list_filter in H. cbn in H. destruct H as [-> H]. exact H.
  - intros H. exists (i, r). split; [reflexivity|]. apply elem_of_list_filter. auto.
Qed.

Lemma of_call_nil i h : of_call i h = [] <-> forall r, (i, r) ∉ h.
Proof.
  split.
  - intros H r Hin. apply of_call_in in Hin. rewrite H in Hin. now apply elem_of_nil in Hin.
  - intros H. destruct (of_call i h) as [|r l] eqn:E; [reflexivity|]. exfalso. apply (H r). apply of_call_in.
    rewrite E. left.
Qed.

(** A request and everything before it in the requests of its call. *)
Lemma of_call_split i h l r l' : of_call i h = l ++ r :: l' ->
  exists h1 h2, h = h1 ++ (i, r) :: h2 /\ of_call i h1 = l /\ of_call i h2 = l'.
Proof.
  revert l. induction h as [|[j x] h IH]; intros l H.
  - destruct l; discriminate.
  - unfold of_call in H. destruct (decide (j = i)) as [->|Hne].
    + rewrite filter_cons_True in H by reflexivity. cbn in H. destruct l as [|y l]; cbn in H.
      * injection H as -> H. exists [], h. auto.
      * injection H as -> H. destruct (IH l H) as (h1 & h2 & -> & E1 & E2). exists ((i, y) :: h1), h2.
        split; [reflexivity|]. split; [|exact E2]. unfold of_call. rewrite filter_cons_True by reflexivity. cbn. f_equal. exact E1.
    + rewrite filter_cons_False in H by exact Hne. destruct (IH l H) as (h1 & h2 & -> & E1 & E2).
      exists ((j, x) :: h1), h2. split; [reflexivity|]. split; [|exact E2]. unfold of_call.
      rewrite filter_cons_False by exact Hne. exact E1.
Qed.

(** ** What programs ask for *)

Lemma runs_begun {Ev X} (p : flow Ev X) tr x : runs p tr x -> begun p tr.
Proof.
  revert tr. induction p as [y|A mk k IH]; intros tr; cbn.
  - intros [-> _]. reflexivity.
  - intros (a & rest & -> & H). right. eauto.
Qed.

(** A request made by a program that goes on with another one is made by the first or by the second. *)
Lemma begun_bind {Ev X Y} (p : flow Ev X) (f : X -> flow Ev Y) tr : begun (flow_bind p f) tr ->
  begun p tr \/ exists tr1 tr2 x, tr = tr1 ++ tr2 /\ runs p tr1 x /\ begun (f x) tr2.
Proof.
  revert tr. induction p as [x|A mk k IH]; intros tr; cbn [flow_bind begun].
  - intros H. right. exists [], tr, x. cbn. auto.
  - intros [->|(a & rest & -> & H)]; [auto|]. apply IH in H.
    destruct H as [H|(tr1 & tr2 & x & -> & H1 & H2)]; [eauto 6|].
    right. exists (mk a :: tr1), tr2, x. split; [reflexivity|]. split; [|exact H2]. cbn. eauto.
Qed.

Lemma begun_ret {Ev X Y} (p : flow Ev X) (f : X -> Y) tr :
  begun (flow_bind p (fun x => Ret (f x))) tr -> begun p tr.
Proof.
  intros H. apply begun_bind in H. destruct H as [H|(tr1 & tr2 & x & -> & H1 & H2)]; [exact H|].
  cbn in H2. subst tr2. rewrite app_nil_r. eapply runs_begun, H1.
Qed.

Lemma runs_ret {Ev X Y} (p : flow Ev X) (f : X -> Y) tr y :
  runs (flow_bind p (fun x => Ret (f x))) tr y <-> exists x, runs p tr x /\ y = f x.
Proof.
  rewrite runs_bind. split.
  - intros (tr1 & tr2 & x & -> & H1 & [-> ->]). rewrite app_nil_r. eauto.
  - intros (x & H & ->). exists tr, [], x. rewrite app_nil_r. cbn. auto.
Qed.

Lemma begun_ask {Ev A} (mk : A -> Ev) tr : begun (ask mk) tr -> tr = [] \/ exists a, tr = [mk a].
Proof. cbn. intros [->|(a & rest & -> & ->)]; eauto. Qed.

Lemma begun_copy id t src dst tr : begun (copy id t src dst) tr ->
  let key := get_s3_key t id in
  (exists a, tr = [Head dst key a]) \/ tr = [] \/ (exists a, tr = [Head dst key None; Get src key a]) \/
  exists d ok, tr = [Head dst key None; Get src key (AData d); Put dst key d ok].
Proof.
  unfold copy. cbn. intros [->|(there & rest & -> & H)]; [auto|].
  destruct there as [z|]; cbn in H; [subst; eauto|].
  destruct H as [->|(got & rest' & -> & H)]; [eauto|].
  destruct got as [| |d]; cbn in H; subst; [eauto 6..|].
  destruct H as [->|(ok & rest & -> & ->)]; eauto 8.
Qed.

Lemma runs_copy id t src dst tr ok : runs (copy id t src dst) tr ok ->
  let key := get_s3_key t id in
  (exists z, tr = [Head dst key (Some z)] /\ ok = true) \/
  (exists a, tr = [Head dst key None; Get src key a] /\ ok = false) \/
  exists d, tr = [Head dst key None; Get src key (AData d); Put dst key d ok].
Proof.
  unfold copy. cbn. intros (there & rest & -> & H).
  destruct there as [z|]; cbn in H; [destruct H as [-> ->]; eauto|].
  destruct H as (got & rest' & -> & H).
  destruct got as [| |d]; cbn in H; [destruct H as [-> ->]; eauto 6..|].
  destruct H as (a & rest & -> & -> & ->); eauto 8.
Qed.

(** Downloads only get this object. *)
Lemma begun_file b id t tr : begun (download_s3_file b id t) tr ->
  Forall (fun r => exists a, r = Get b (get_s3_key t id) a) tr.
Proof.
  intros H. apply begun_ret, begun_ask in H. destruct H as [->|(a & ->)]; repeat constructor. eauto.
Qed.

Lemma begun_loop b id t : forall left tr, begun (download_loop left b id t) tr ->
  Forall (fun r => exists a, r = Get b (get_s3_key t id) a) tr.
Proof.
  induction left as [|left IH]; intros tr H; cbn [download_loop] in H; [cbn in H; subst; constructor|].
  apply begun_bind in H. destruct H as [H|(tr1 & tr2 & r & -> & H1 & H2)]; [eapply begun_file, H|].
  apply Forall_app. split; [eapply begun_file, runs_begun, H1|].
  destruct r; [cbn in H2; subst; constructor|apply IH, H2..].
Qed.

Lemma runs_file b id t tr r : runs (download_s3_file b id t) tr r ->
  exists a, tr = [Get b (get_s3_key t id) a] /\ r = whole a.
Proof. intros H. apply runs_ret in H. destruct H as (a & H & ->). apply runs_ask in H. eauto. Qed.

Lemma runs_loop b id t : forall left tr r, runs (download_loop left b id t) tr r ->
  r = DErr \/ exists d, r = DOk d /\ Get b (get_s3_key t id) (AData d) ∈ tr.
Proof.
  induction left as [|left IH]; intros tr r H; cbn [download_loop] in H; [cbn in H; destruct H as [-> ->]; auto|].
  apply runs_bind in H. destruct H as (tr1 & tr2 & r1 & -> & H1 & H2).
  apply runs_file in H1. destruct H1 as (a & -> & ->).
  destruct a as [| |d]; cbn [whole] in H2; [..|cbn in H2; destruct H2 as [-> ->]; right; exists d; split; [reflexivity|left]];
    (apply IH in H2; destruct H2 as [->|(d & -> & Hin)]; [auto|]; right; exists d; split; [reflexivity|];
     apply elem_of_app; now right).
Qed.

Lemma begun_uri id uri t tr : begun (download_raw_from_uri id uri t) tr ->
  forall r, r ∈ tr -> (exists b a, r = Get b (get_s3_key t id) a) \/ exists a, r = Web a.
Proof.
  unfold download_raw_from_uri. intros H r Hr.
  destruct uri as [u|]; [|cbn in H; subst; now apply elem_of_nil in Hr].
  case_bool_decide.
  - destruct (pu_host u) as [b|]; [|cbn in H; subst; now apply elem_of_nil in Hr].
    apply begun_file in H. rewrite Forall_forall in H. apply H in Hr. left. destruct Hr as (a & ->). eauto.
  - case_bool_decide; [|cbn in H; subst; now apply elem_of_nil in Hr].
    apply begun_ret, begun_ask in H. destruct H as [->|(a & ->)]; [now apply elem_of_nil in Hr|].
    apply elem_of_list_singleton in Hr. right. eauto.
Qed.

(** ** Who stores what *)

(** A stored object was given to an upload or has been read from the source of a copy. *)
Lemma put_by {X} (C : codec X) c tr l b k d ok l' : begun (program C c) tr -> tr = l ++ Put b k d ok :: l' ->
  l' = [] /\ exists t id, k = get_s3_key t id /\
    (l = [] /\ uploads C c b t id d \/
     exists src, c = Copy id t src b /\ Get src k (AData d) ∈ l).
Proof.
  intros H E.
  assert (Hin : Put b k d ok ∈ tr) by (rewrite E; apply elem_of_app; right; left).
  destruct c as [id b0 t item|id b0 t data|id t src dst|id b0 t|id uri t|kd id b0|kd id uri]; cbn [program] in H; apply begun_ret in H.
  - unfold upload in H. destruct (serialize C item) as [data|] eqn:Es.
    + apply begun_ask in H. destruct H as [->|(a & ->)]; [destruct l; discriminate|].
      destruct l as [|x [|]]; try discriminate. injection E as <- <- <- <- <-. split; [reflexivity|].
      exists t, id. split; [reflexivity|]. left. split; [reflexivity|]. right. eauto.
    + cbn in H. subst. destruct l; discriminate.
  - apply begun_ask in H. destruct H as [->|(a & ->)]; [destruct l; discriminate|].
    destruct l as [|x [|]]; try discriminate. injection E as <- <- <- <- <-. split; [reflexivity|].
    exists t, id. split; [reflexivity|]. left. split; [reflexivity|]. left. reflexivity.
  - apply begun_copy in H. destruct H as [(a & ->)|[->|[(a & ->)|(d0 & a & ->)]]].
    + destruct l as [|x [|]]; discriminate.
    + destruct l; discriminate.
    + destruct l as [|x [|y [|]]]; discriminate.
    + destruct l as [|x [|y [|z [|]]]]; try discriminate. injection E as <- <- <- <- <- <- <-. split; [reflexivity|].
      exists t, id. split; [reflexivity|]. right. exists src. split; [reflexivity|]. right. left.
  - apply begun_loop in H. rewrite Forall_forall in H. apply H in Hin. destruct Hin as (a & ?). discriminate.
  - apply (begun_uri _ _ _ _ H) in Hin. destruct Hin as [(x & a & ?)|(a & ?)]; discriminate.
  - unfold download_item in H. apply begun_ret in H.
    apply begun_loop in H. rewrite Forall_forall in H. apply H in Hin. destruct Hin as (a & ?). discriminate.
  - unfold download_item_from_uri in H. apply begun_ret in H.
    apply (begun_uri _ _ _ _ H) in Hin. destruct Hin as [(x & a & ?)|(a & ?)]; discriminate.
Qed.

Lemma put_writes {X} (C : codec X) calls s h s' i b t id d ok : used C calls s h s' ->
  (i, Put b (get_s3_key t id) d ok) ∈ h -> exists c, calls !! i = Some c /\ writes c b t id.
Proof.
  intros [Hs Hc Hb] Hin. destruct (Hc _ _ Hin) as (c & Ec). exists c. split; [exact Ec|].
  apply of_call_in in Hin. apply elem_of_list_split in Hin. destruct Hin as (l & l' & E).
  destruct (put_by C c _ l b _ d ok l' (Hb i c Ec) E) as (_ & t' & id' & Ek & Hw).
  apply key_inj in Ek. destruct Ek as [<- <-]. unfold writes.
  destruct Hw as [[_ [->|(item & -> & _)]]|(src & -> & _)]; eauto.
Qed.

(** What is stored stays while no request stores anything else. *)
Lemma served_keeps x r x' b k : served x r x' -> (forall d ok, r <> Put b k d ok) -> x' !! (b, k) = x !! (b, k).
Proof.
  intros H Hn. destruct H as [| | | | |s b0 k0 d| |s b0 k0 d|]; try reflexivity;
    (rewrite lookup_insert_ne; [reflexivity|]; intros [= -> ->]; now apply (Hn d _ eq_refl)).
Qed.

Lemma serves_keeps s h s' b k : serves s h s' -> (forall i d ok, (i, Put b k d ok) ∉ h) -> s' !! (b, k) = s !! (b, k).
Proof.
  intros H. induction H as [s|s s1 s' i r h Hr Hh IH]; intros Hn; [reflexivity|].
  rewrite IH.
  - apply (served_keeps _ _ _ _ _ Hr). intros d ok ->. apply (Hn i d ok). left.
  - intros j d ok Hin. apply (Hn j d ok). now right.
Qed.

Lemma serves_get s h s' i b k d : serves s h s' -> (i, Get b k (AData d)) ∈ h ->
  exists h1 h2 x, h = h1 ++ (i, Get b k (AData d)) :: h2 /\ serves s h1 x /\ serves x ((i, Get b k (AData d)) :: h2) s' /\
    x !! (b, k) = Some d.
Proof.
  intros H Hin. apply elem_of_list_split in Hin. destruct Hin as (h1 & h2 & ->).
  apply serves_app in H. destruct H as (x & H1 & H2). exists h1, h2, x.
  split; [reflexivity|]. split; [exact H1|]. split; [exact H2|].
  inversion H2 as [|? s1 ? ? ? ? Hr Hh]; subst. inversion Hr; subst. assumption.
Qed.

(** ** What a download returns *)

Lemma read_got {X} (C : codec X) c tr r b t id : reads c b t id -> runs (program C c) tr r ->
  fails r \/ (exists d, Get b (get_s3_key t id) (AData d) ∈ tr /\
    (gives C r d \/ r = Item None /\ deserialize C d = None)).
Proof.
  intros Hreads H.
  assert (Hloop : forall tr d, runs (download_stored id b t) tr d ->
            d = DErr \/ exists x, d = DOk x /\ Get b (get_s3_key t id) (AData x) ∈ tr) by (intros ? ?; apply runs_loop).
  assert (Huri : forall uri tr d, in_bucket uri b -> runs (download_raw_from_uri id uri t) tr d ->
            d = DErr \/ exists x, d = DOk x /\ Get b (get_s3_key t id) (AData x) ∈ tr).
  { intros uri tr0 d -> H0. unfold download_raw_from_uri in H0. cbn [pu_scheme pu_host] in H0.
    rewrite bool_decide_true in H0 by reflexivity. apply runs_file in H0. destruct H0 as (a & -> & ->).
    destruct a as [| |x]; cbn; auto. right. exists x. split; [reflexivity|left]. }
  assert (Hraw : forall d, (d = DErr \/ exists x, d = DOk x /\ Get b (get_s3_key t id) (AData x) ∈ tr) -> r = Data d ->
            fails r \/ exists d, Get b (get_s3_key t id) (AData d) ∈ tr /\ (gives C r d \/ r = Item None /\ deserialize C d = None)).
  { intros d [->|(x & -> & Hin)] ->; [left; left; reflexivity|]. right. exists x. split; [exact Hin|]. left. now left. }
  assert (Hitem : forall d, (d = DErr \/ exists x, d = DOk x /\ Get b (get_s3_key t id) (AData x) ∈ tr) -> r = Item (item_of C d) ->
            fails r \/ exists d, Get b (get_s3_key t id) (AData d) ∈ tr /\ (gives C r d \/ r = Item None /\ deserialize C d = None)).
  { intros d [->|(x & -> & Hin)] ->; [left; right; left; reflexivity|]. right. exists x. split; [exact Hin|]. cbn.
    destruct (deserialize C x) as [y|] eqn:Ey; [|auto]. left. right. eauto. }
  destruct Hreads; cbn [program] in H; apply runs_ret in H; destruct H as (z & H & ->);
    try (unfold download_item, download_item_from_uri in H; apply runs_ret in H; destruct H as (d & H & ->));
    eauto.
Qed.
