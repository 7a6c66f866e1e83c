From Coq Require Import String.
From Verif Require Import Base BaseLemmas ParamModel ParamSpec ParamProofs.
Open Scope string_scope.

Lemma usable_at n a j : usable n a -> (j < n)%nat -> bound_at (make_bound n a) j = Ok (arg_at a j) /\ (a <> ANone -> arg_at a j <> None).
Proof.
  intros U Hj. destruct U as [-> | [(l & -> & L & N) | (-> & r & Hr & [-> | ->])]].
  - split; [reflexivity|congruence].
  - cbn. unfold nth_res. destruct (nth_error l j) as [x|] eqn:E; [|apply nth_error_None in E; lia].
    destruct l; [congruence|]. split; [reflexivity|discriminate].
  - assert (j = 0)%nat by lia. subst. cbn. destruct (Req_EM_T r 0); [contradiction|]. split; [reflexivity|discriminate].
  - assert (j = 0)%nat by lia. subst. cbn. destruct (Req_EM_T r 0); [contradiction|]. split; [reflexivity|discriminate].
Qed.
Lemma clip_columns_ok lo hi n : forall i m, (i + n <= mcols m)%nat ->
  (forall j, (i <= j < i + n)%nat -> exists l h, bound_at lo j = Ok l /\ bound_at hi j = Ok h /\ ~ (l = None /\ h = None)) ->
  exists m', clip_columns lo hi n i m = Ok m'.
Proof.
  induction n as [|n IH]; intros i m Hc Hb; [now exists m|]. cbn [clip_columns].
  destruct (Hb i) as (l & h & -> & -> & N); [lia|]. cbn [bind]. destruct (Nat.ltb_spec i (mcols m)); [|lia].
  destruct l as [l|], h as [h|]; try (apply IH; cbn [mcols]; [lia|intros j Hj; apply Hb; lia]). exfalso. auto.
Qed.
Lemma enforce_ok n lo hi m : usable n lo -> usable n hi -> ~ (lo = ANone /\ hi = ANone) ->
  mat_wf m -> mcols m = n ->
  (forall j l h, (j < n)%nat -> arg_at lo j = Some l -> arg_at hi j = Some h -> (l <= h)%R) ->
  exists m', enforce_bounds (make_bound n lo) (make_bound n hi) n (In2 m) = Ok (In2 m') /\
    mcols m' = n /\ mat_wf m' /\ nrows m' = nrows m /\
    forall k j, (k < nrows m)%nat -> (j < n)%nat ->
      in_bounds lo hi j (mget m' k j) /\ (in_bounds lo hi j (mget m k j) -> mget m' k j = mget m k j).
Proof.
  intros Ul Uh Nb W C Hlh.
  destruct (clip_columns_ok (make_bound n lo) (make_bound n hi) n 0 m) as [m' E]; [lia| |].
  { intros j Hj. destruct (usable_at n lo j Ul) as [B1 B2]; [lia|]. destruct (usable_at n hi j Uh) as [B3 B4]; [lia|].
    do 2 eexists. split; [exact B1|]. split; [exact B3|]. intros [X Y].
    destruct lo; [|now apply B2| now apply B2 | now apply B2]. destruct hi; [tauto| now apply B4 | now apply B4 | now apply B4]. }
  exists m'. destruct (clip_columns_cells _ _ _ _ _ _ W E) as (C' & W' & L & _ & Ce).
  split. { unfold enforce_bounds. destruct lo, hi; cbn [make_bound] in *; try (rewrite E; reflexivity). tauto. }
  split; [congruence|]. split; [exact W'|]. split; [exact L|]. intros k j Hk Hj.
  destruct (Ce k j Hk) as [C1 _]. destruct C1 as (l & h & B1 & B2 & Eq); [lia|].
  destruct (usable_at n lo j Ul Hj) as [B3 _]. destruct (usable_at n hi j Uh Hj) as [B4 _].
  rewrite B1 in B3. injection B3 as ->. rewrite B2 in B4. injection B4 as ->. rewrite Eq. split.
  - split; apply clip_in; intros; eapply Hlh; eauto.
  - intros [I1 I2]. apply clip_id; auto.
Qed.

(** ** selection of schedule parameters *)
Lemma is_sched_prefix n : String.prefix "sched_" n = true -> is_sched n = true.
Proof. intros H. destruct n as [|c n]; [discriminate|]. unfold is_sched. rewrite H. reflexivity. Qed.
Lemma drop6_sched n : drop6 ("sched_" ++ n) = n.
Proof.
  unfold drop6. cbn [append String.length substring Nat.sub]. rewrite Nat.sub_0_r.
  induction n as [|c n IH]; [reflexivity|]. cbn [String.length substring]. now rewrite IH.
Qed.
Lemma sdmp_select_sched s ns f : In f (s_scheds (sdmp_select s ns)) -> exists g, In g (s_scheds s) /\ f_model f = f_model g /\ f_dim f = f_dim g /\
  f_sel f = Some (map drop6 (filter is_sched (name_list ns))).
Proof.
  cbn. intros H. apply in_map_iff in H. destruct H as (g & <- & Hg). exists g. auto.
Qed.
Lemma prefix_app p s : String.prefix p s = true <-> exists b, s = p ++ b.
Proof.
  revert s. induction p as [|c p IH]; intros s; [split; [exists s; reflexivity|destruct s; reflexivity]|].
  destruct s as [|d s]; cbn [String.prefix].
  - split; [discriminate|intros [b E]; discriminate].
  - destruct (Ascii.ascii_dec c d) as [->|N].
    + rewrite IH. split; intros [b E]; exists b; [now rewrite E|now injection E].
    + split; [discriminate|]. intros [b E]. injection E as E _. congruence.
Qed.
Lemma is_sched_spec n : is_sched n = true <-> exists a b, n = a ++ "sched_" ++ b.
Proof.
  induction n as [|c n IH].
  - split; [discriminate|]. intros (a & b & E). destruct a; discriminate.
  - change (is_sched (String c n)) with (String.prefix "sched_" (String c n) || is_sched n)%bool.
    rewrite Bool.orb_true_iff, IH, prefix_app. split.
    + intros [[b E]|(a & b & E)]; [exists "", b; exact E|exists (String c a), b; now rewrite E].
    + intros (a & b & E). destruct a as [|d a]; [left; exists b; exact E|]. right. injection E as _ E. now exists a, b.
Qed.
Lemma sdmp_select_names s ns :
  (forall n, In n (name_list ns) -> (exists a b, n = a ++ "sched_" ++ b) -> exists b, n = "sched_" ++ b) ->
  (forall f, In f (s_scheds (sdmp_select s ns)) -> exists l, f_sel f = Some l /\
     forall x, In x l <-> In ("sched_" ++ x) (name_list ns)) /\
  (forall f, In f (fas_of (s_dmp (sdmp_select s ns))) -> exists l, f_sel f = Some l /\
     forall x, In x l <-> In x (name_list ns) /\ x <> "goal" /\ ~ exists b, x = "sched_" ++ b).
Proof.
  intros H. split.
  - intros f Hf. destruct (sdmp_select_sched s ns f Hf) as (g & _ & _ & _ & E). eexists. split; [exact E|].
    intros x. rewrite in_map_iff. split.
    + intros (n & <- & Hn). apply filter_In in Hn. destruct Hn as [Hn Hs]. apply is_sched_spec in Hs.
      destruct (H n Hn Hs) as [b ->]. now rewrite drop6_sched.
    + intros Hx. exists ("sched_" ++ x). split; [apply drop6_sched|]. apply filter_In. split; [exact Hx|].
      apply is_sched_spec. now exists "", x.
  - intros f Hf. destruct (dmp_select_fas _ _ f Hf) as (g & _ & _ & _ & l & E & Hl). exists l. split; [exact E|].
    intros x. rewrite Hl. cbn [name_list]. rewrite filter_In, Bool.negb_true_iff. split.
    + intros [[H1 H2] H3]. split; [exact H1|]. split; [exact H3|]. intros [b ->].
      assert (T : is_sched ("sched_" ++ b) = true) by (apply is_sched_spec; now exists "", b). congruence.
    + intros (H1 & H2 & H3). split; [|exact H2]. split; [exact H1|]. destruct (is_sched x) eqn:Ex; [|reflexivity].
      exfalso. apply H3. apply is_sched_spec in Ex. auto.
Qed.
