(** Properties C30-C36: parameter vectors and schedule bounds. *)
From Coq Require Import String.
From Verif Require Import Base BaseLemmas ParamModel ParamSpec ParamProofs ParamProofs2 ParamExamples.
Open Scope string_scope.

(** ** C30. Full statement: for every trained function approximator and every selection of distinct
    parameter names. Proved for selections of parameters that are arrays with at least one dimension
    ([selectable]); false for the offset of a least-squares model trained on one-dimensional targets. *)
Theorem C30_get_after_set_partial : forall f v, selectable f -> fa_size f = Ok (length v) ->
  exists f', fa_set f v = (f', Ok tt) /\ fa_get f' = Ok v /\ fa_size f' = Ok (length v) /\ selectable f'.
Proof. exact fa_set_ok. Qed.
Print Assumptions C30_get_after_set_partial.
Theorem C30_set_after_get_partial : forall f v, selectable f -> fa_get f = Ok v -> fa_set f v = (f, Ok tt).
Proof. exact fa_set_get. Qed.
Print Assumptions C30_set_after_get_partial.
Theorem C30_size_partial : forall f, selectable f -> exists v, fa_get f = Ok v /\ fa_size f = Ok (length v).
Proof. exact fa_get_size. Qed.
Print Assumptions C30_size_partial.
(** the vector read from the model cannot be written back; after changing the slope, the slope has
    changed although an exception was raised *)
Theorem C30_refuted : fa_get ex_wls = Ok [2; 3]%R /\ fa_size ex_wls = Ok 2%nat /\
  fa_set ex_wls [2; 3]%R = (ex_wls, Err TypeError) /\
  exists f', fa_set ex_wls [10; 3]%R = (f', Err TypeError) /\ lookup (f_model f') "slope" = Some (PArr (Arr [1%nat] [10]%R)).
Proof. repeat split. eexists. split; reflexivity. Qed.
Print Assumptions C30_refuted.
Example C30_case : selectable (ex_lwr (Some ["slopes"; "offsets"])) /\
  fa_get (ex_lwr (Some ["slopes"; "offsets"])) = Ok [5; 6; 3; 4]%R.
Proof. split; [apply ex_lwr_selectable|reflexivity]. Qed.

(** ** C31: whatever the outcome *)
Theorem C31_frame : forall f v f' r, fa_set f v = (f', r) -> same_but (fa_selection f) f f'.
Proof. exact fa_set_same. Qed.
Print Assumptions C31_frame.
Example C31_case : exists f', fa_set (ex_lwr (Some ["slopes"])) [1; 2]%R = (f', Ok tt) /\ f' <> ex_lwr (Some ["slopes"]).
Proof. eexists. split; [reflexivity|]. unfold ex_lwr. intros E. injection E. lra. Qed.

(** ** C32 *)
Theorem C32_set_rejects : forall f v,
  (is_trained f = false \/ exists n, fa_size f = Ok n /\ length v <> n) -> fa_set f v = (f, Err ValueError).
Proof. exact fa_set_wrong. Qed.
Print Assumptions C32_set_rejects.
Theorem C32_predict_rejects : forall B f (predict_fn : list (string * pval) -> mat -> res B) i,
  (is_trained f = false \/ exists d m, f_dim f = Some d /\ as_columns i = Ok m /\ mcols m <> d) ->
  predict f predict_fn i = Err ValueError.
Proof.
  intros B f p i [H|(d & m & H & M & N)]; unfold predict; unfold is_trained in *.
  - destruct (f_dim f); [discriminate|reflexivity].
  - rewrite H, M. cbn. apply Nat.eqb_neq in N. now rewrite N.
Qed.
Print Assumptions C32_predict_rejects.
(** after training with inputs of d columns, predict accepts exactly these *)
Theorem C32_train_predict : forall B f train_fn i f' (predict_fn : list (string * pval) -> mat -> res B) j m n,
  train f train_fn i = (f', Ok tt) -> as_columns i = Ok m -> as_columns j = Ok n ->
  (mcols n = mcols m -> exists ps, train_fn m = Ok ps /\ predict f' predict_fn j = predict_fn ps n) /\
  (mcols n <> mcols m -> predict f' predict_fn j = Err ValueError).
Proof.
  intros B f t i f' p j m n H Hi Hj. unfold train in H. rewrite Hi in H. destruct (t m) as [ps|]; [|discriminate].
  injection H as <-. unfold predict. cbn. rewrite Hj. cbn. split.
  - intros ->. rewrite Nat.eqb_refl. eauto.
  - intros N. apply Nat.eqb_neq in N. now rewrite N.
Qed.
Print Assumptions C32_train_predict.
(** a failing training leaves the function approximator as it was *)
Theorem C32_train_fails : forall f train_fn i f' e, train f train_fn i = (f', Err e) -> f' = f.
Proof.
  intros f t i f' e H. unfold train in H. destruct (as_columns i) as [m|]; [|congruence].
  destruct (t m); [discriminate|congruence].
Qed.
Print Assumptions C32_train_fails.
Example C32_case : is_trained (new_fa ["slopes"]) = false /\
  (exists n, fa_size (ex_lwr (Some ["slopes"])) = Ok n /\ length [1; 2; 3]%R <> n) /\
  (exists f', train (new_fa ["slopes"]) (fun m => Ok [("slopes", PArr (Arr [1%nat] [1%R]))]) (In1 [1; 2]%R) = (f', Ok tt)).
Proof. split; [reflexivity|]. split; [exists 2%nat; split; [reflexivity|discriminate]|eexists; reflexivity]. Qed.

(** ** C33 *)
Theorem C33_get_after_set : forall p v, selectable_dmp p -> dmp_size p = Ok (length v) ->
  exists p', dmp_set p v = (p', Ok tt) /\ dmp_get p' = Ok v /\ dmp_size p' = Ok (length v) /\ selectable_dmp p' /\
    same_fas (fas_of p) (fas_of p') /\ p_sel p' = p_sel p /\ p_dim p' = p_dim p /\
    p_attr p' = (if mem "goal" (p_sel p) then skipn (length v - p_dim p) v else p_attr p).
Proof. exact dmp_set_ok. Qed.
Print Assumptions C33_get_after_set.
Theorem C33_set_after_get : forall p v, selectable_dmp p -> dmp_get p = Ok v -> dmp_set p v = (p, Ok tt).
Proof. exact dmp_set_get. Qed.
Print Assumptions C33_set_after_get.
Theorem C33_size : forall p, selectable_dmp p -> exists v, dmp_get p = Ok v /\ dmp_size p = Ok (length v).
Proof. exact dmp_get_size. Qed.
Print Assumptions C33_size.
(** the vector: the function approximators' vectors, then the goal if it is selected *)
Theorem C33_layout : forall p v, selectable_dmp p -> dmp_get p = Ok v ->
  exists w, mapM fa_get (filter is_trained (fas_of p)) = Ok w /\
    (goal_selected p -> v = concat w ++ p_attr p)%list /\ (~ goal_selected p -> v = concat w).
Proof.
  intros p v H G. destruct (dmp_get_parts p v H G) as (u & Gu & ->).
  assert (E : exists w, mapM fa_get (filter is_trained (fas_of p)) = Ok w /\ u = concat w).
  { clear G. revert u Gu. induction (fas_of p) as [|f fs IH]; intros u Gu; [injection Gu as <-; exists []; auto|].
    cbn [fas_get filter] in *. destruct (is_trained f); [|apply IH; exact Gu]. destruct (fa_get f) as [a|] eqn:Ea; [|discriminate].
    cbn [bind] in Gu. destruct (fas_get fs) as [b|]; [|discriminate]. injection Gu as <-. destruct (IH b eq_refl) as (w & E & ->).
    exists (a :: w). cbn [mapM]. rewrite Ea, E. auto. }
  destruct E as (w & E & ->). exists w. split; [exact E|]. unfold goal_selected. rewrite <- mem_In.
  destruct (mem "goal" (p_sel p)); split; intros X; try congruence; now rewrite ?app_nil_r.
Qed.
Print Assumptions C33_layout.
Theorem C33_wrong_size : forall p v n, dmp_size p = Ok n -> length v <> n -> dmp_set p v = (p, Err ValueError).
Proof. exact dmp_set_wrong. Qed.
Print Assumptions C33_wrong_size.
(** the proviso on selections is needed: without one, a trained function approximator contributes a
    spurious 0 to the vector although its size is 0, and setting fails *)
Theorem C33_unselected_refuted : dmp_get ex_unselected = Ok [0]%R /\ dmp_size ex_unselected = Ok 0%nat /\
  dmp_set ex_unselected [0]%R = (ex_unselected, Err ValueError) /\ snd (dmp_set ex_unselected []) = Err TypeError.
Proof. repeat split. Qed.
Print Assumptions C33_unselected_refuted.
Example C33_case : selectable_dmp (ex_dmp ["goal"]) /\ goal_selected (ex_dmp ["goal"]) /\
  dmp_get (ex_dmp ["goal"]) = Ok [5; 6; 3; 4; 5; 6; 3; 4; 7; 8; 9]%R.
Proof. split; [apply ex_dmp_selectable|]. split; [now left|reflexivity]. Qed.

(** ** C34. Full statement: after the call, "goal" is selected iff it is among the names. *)
Theorem C34_selection_partial : forall p ns, (In "goal" (name_list ns) \/ ~ goal_selected p) ->
  (goal_selected (dmp_select p ns) <-> In "goal" (name_list ns)).
Proof.
  intros p ns H. unfold goal_selected. rewrite dmp_select_sel. destruct (mem "goal" (name_list ns)) eqn:E.
  - apply mem_In in E. split; [tauto|now left].
  - assert (N : ~ In "goal" (name_list ns)) by (rewrite <- mem_In; congruence). tauto.
Qed.
Print Assumptions C34_selection_partial.
Theorem C34_refuted : exists p ns, ~ In "goal" (name_list ns) /\ goal_selected (dmp_select p ns) /\
  dmp_size (dmp_select p ns) = Ok 7%nat /\ dmp_size (dmp_select (ex_dmp []) ns) = Ok 4%nat.
Proof. exists (dmp_select (ex_dmp []) (NStr "goal")), (NStr "slopes"). repeat split; cbn; intuition discriminate. Qed.
Print Assumptions C34_refuted.
(** each function approximator gets the other names *)
Theorem C34_function_approximators : forall p n f, In f (fas_of (dmp_select p n)) ->
  exists g, In g (fas_of p) /\ f_model f = f_model g /\ f_dim f = f_dim g /\
  exists l, f_sel f = Some l /\ forall x, In x l <-> In x (name_list n) /\ x <> "goal".
Proof. exact dmp_select_fas. Qed.
Print Assumptions C34_function_approximators.
Example C34_case : (In "goal" (name_list (NList ["slopes"; "goal"])) \/ ~ goal_selected (ex_dmp [])) /\
  (exists f, In f (fas_of (dmp_select (ex_dmp []) (NList ["slopes"; "goal"])))).
Proof. split; [left; cbn; tauto|eexists; cbn; left; reflexivity]. Qed.

(** ** C35 *)
Theorem C35_get_after_set : forall s v k, selectable_sdmp s -> sdmp_size s = Ok (length v) -> dmp_size (s_dmp s) = Ok k ->
  exists s', sdmp_set s v = (s', Ok tt) /\ dmp_get (s_dmp s') = Ok (firstn k v) /\ fas_get (s_scheds s') = Ok (skipn k v) /\
    sdmp_get s' = Ok v /\ selectable_sdmp s'.
Proof. exact sdmp_set_ok. Qed.
Print Assumptions C35_get_after_set.
Theorem C35_set_after_get : forall s v, selectable_sdmp s -> sdmp_get s = Ok v -> sdmp_set s v = (s, Ok tt).
Proof. exact sdmp_set_get. Qed.
Print Assumptions C35_set_after_get.
Theorem C35_size : forall s, selectable_sdmp s -> exists v w, dmp_get (s_dmp s) = Ok v /\ fas_get (s_scheds s) = Ok w /\
  sdmp_get s = Ok (v ++ w)%list /\ sdmp_size s = Ok (length v + length w)%nat.
Proof. exact sdmp_get_size. Qed.
Print Assumptions C35_size.
(** names; the code tests whether a name contains "sched_", the property speaks of prefixes *)
Theorem C35_names_partial : forall s ns,
  (forall n, In n (name_list ns) -> (exists a b, n = a ++ "sched_" ++ b) -> exists b, n = "sched_" ++ b) ->
  (forall f, In f (s_scheds (sdmp_select s ns)) -> exists l, f_sel f = Some l /\
     forall x, In x l <-> In ("sched_" ++ x) (name_list ns)) /\
  (forall f, In f (fas_of (s_dmp (sdmp_select s ns))) -> exists l, f_sel f = Some l /\
     forall x, In x l <-> In x (name_list ns) /\ x <> "goal" /\ ~ exists b, x = "sched_" ++ b).
Proof. exact sdmp_select_names. Qed.
Print Assumptions C35_names_partial.
Theorem C35_names_refuted : exists f, In f (s_scheds (sdmp_select ex_sdmp (NStr "my_sched_x"))) /\ f_sel f = Some ["ed_x"].
Proof. eexists. split; [left; reflexivity|reflexivity]. Qed.
Print Assumptions C35_names_refuted.
Example C35_case : selectable_sdmp ex_sdmp /\ sdmp_size ex_sdmp = Ok (length [1;2;3;4;5;6;7;8;9;10;11;12;13]%R) /\
  dmp_size (s_dmp ex_sdmp) = Ok 11%nat /\
  (forall n, In n (name_list (NList ["sched_offsets"; "slopes"])) -> (exists a b, n = a ++ "sched_" ++ b) -> exists b, n = "sched_" ++ b).
Proof.
  split; [apply ex_sdmp_selectable|]. split; [reflexivity|]. split; [reflexivity|].
  intros n [<-|[<-|[]]] H; [exists "offsets"; reflexivity|]. apply is_sched_spec in H. discriminate.
Qed.

(** ** C36. Full statement: for all bounds (scalars, arrays, lists or none) with lower <= upper, every
    returned value is within the bounds. *)
Theorem C36_bounds_partial : forall n lo hi m, usable n lo -> usable n hi -> ~ (lo = ANone /\ hi = ANone) ->
  mat_wf m -> mcols m = n ->
  (forall j l h, (j < n)%nat -> arg_at lo j = Some l -> arg_at hi j = Some h -> (l <= h)%R) ->
  exists m', enforce_bounds (make_bound n lo) (make_bound n hi) n (In2 m) = Ok (In2 m') /\
    mcols m' = n /\ mat_wf m' /\ nrows m' = nrows m /\
    forall k j, (k < nrows m)%nat -> (j < n)%nat ->
      in_bounds lo hi j (mget m' k j) /\ (in_bounds lo hi j (mget m k j) -> mget m' k j = mget m k j).
Proof. exact enforce_ok. Qed.
Print Assumptions C36_bounds_partial.
(** a lower bound 0 for one schedule is ignored *)
Theorem C36_refuted : exists m', enforce_bounds (make_bound 1 (AScalar 0)) (make_bound 1 (AScalar 5)) 1 (In2 (Mat 1 [[(-1)%R]])) = Ok (In2 m') /\
  ~ in_bounds (AScalar 0) (AScalar 5) 0 (mget m' 0 0).
Proof.
  unfold enforce_bounds, clip_columns, make_bound, bound_at. cbn [repeat]. destruct (Req_EM_T 0 0) as [_|C]; [|congruence].
  destruct (Req_EM_T 5 0) as [C|_]; [lra|]. cbn. eexists. split; [reflexivity|]. intros [H _]. specialize (H 0%R eq_refl).
  cbn in H. rewrite Rmin_right in H by lra. lra.
Qed.
Print Assumptions C36_refuted.
(** scalar bounds for two schedules raise; so does a single time step with two schedules *)
Theorem C36_scalar_refuted : forall lo hi m, mcols m = 2%nat ->
  enforce_bounds (make_bound 2 (AScalar lo)) (make_bound 2 (AScalar hi)) 2 (In2 m) = Err ValueError.
Proof. reflexivity. Qed.
Print Assumptions C36_scalar_refuted.
Theorem C36_step_refuted : forall l0 l1 h0 h1 x y,
  enforce_bounds (make_bound 2 (AList [l0; l1])) (make_bound 2 (AList [h0; h1])) 2 (In1 [x; y]) = Err IndexError.
Proof. reflexivity. Qed.
Print Assumptions C36_step_refuted.
Example C36_case : usable 2 (AList [0; 1]%R) /\ usable 2 ANone /\ mat_wf (Mat 2 [[-1; 0]; [3; 4]]%R).
Proof. split; [right; left; eexists; repeat split; discriminate|]. split; [now left|]. repeat constructor. Qed.
