(** Radial basis function networks and locally weighted regression. *)
From Coq Require Import String.
From Verif Require Import Base BaseLemmas ParamModel FaModel FaSpec FaProofs FaProofs2 FaProofs3 FaProofs4 FaProofs5 FaProofs6.
Open Scope list_scope.
Open Scope R_scope.

(** ** arrays *)
Lemma arr_input_mat d rows : Forall (fun r => length r = d) rows ->
  arr_input (mat_arr (Mat d rows)) = Ok (In2 (Mat d rows)).
Proof. intros H. unfold arr_input, mat_arr, nrows. cbn [ashape adata mcols mrows]. now rewrite chunks_concat. Qed.

(** ** centers and widths after training *)
Lemma spread_range d xs ns k lo hi : samples d xs -> spread d xs ns -> (k < d)%nat -> column_range xs k lo hi ->
  lo <= hi /\ (nth k ns 0%nat = 1%nat \/ lo < hi).
Proof.
  intros [NE _] Sp Hk (A & B & F). rewrite Forall_forall in F.
  destruct xs as [|x0 xs]; [contradiction|]. pose proof (F x0 (or_introl eq_refl)).
  split; [lra|]. destruct (Sp k Hk) as [E|(x & y & Ix & Iy & N)]; [now left|right].
  pose proof (F x Ix). pose proof (F y Iy). destruct (Rle_lt_or_eq_dec lo hi); [lra|assumption|lra].
Qed.
Lemma the_width_pos h x : 0 < h < 1 -> x <> 0 -> 0 < the_width h x.
Proof.
  intros Hh N. unfold the_width. apply Rdiv_lt_0_compat; [now apply Rabs_pos_lt|]. apply sqrt_lt_R0. now apply ln_neg.
Qed.

Record basis (d : nat) (xs : list (list R)) (ns : list nat) (h : R) (C W : list (list R)) : Prop := {
  bs_eq : get_centers_and_widths (In2 (Mat d xs)) ns h = Ok (Mat d C, Mat d W);
  bs_C : Forall (fun r => length r = d) C;
  bs_W : Forall (fun r => length r = d) W;
  bs_n : length C = prod ns;
  bs_nW : length W = length C;
  bs_N : Forall (fun r => Forall (fun s => s <> 0) r) W;
  bs_NE : C <> [] }.

Lemma prod_pos ns : Forall (fun n => (0 < n)%nat) ns -> (0 < prod ns)%nat.
Proof. unfold prod. induction 1; cbn; [lia|]. apply Nat.mul_pos_pos; assumption. Qed.

Lemma basis_exists d xs ns h : samples d xs -> (0 < d)%nat -> per_dim d ns -> spread d xs ns -> 0 < h < 1 ->
  exists C W, basis d xs ns h C W.
Proof.
  intros S D [L P] Sp H.
  destruct (centers_and_widths d xs ns h S D L P H) as (los & his & R & E).
  rewrite grid_repeat in E.
  eexists. eexists. split; [exact E| | | | | |].
  - pose proof (grid_rows (map (fun dd => linspace (nth dd los 0) (nth dd his 0) (nth dd ns 0%nat)) (seq 0 d))) as G.
    now rewrite map_length, seq_length in G.
  - apply Forall_forall. intros r Hr. apply repeat_spec in Hr. subst r. now rewrite map_length, seq_length.
  - rewrite grid_length, map_map. f_equal. rewrite (list_eq_map_nth 0%nat ns) at 1. rewrite L. apply map_ext.
    intros; apply linspace_length.
  - rewrite repeat_length, grid_length, map_map. f_equal. apply map_ext. intros; symmetry; apply linspace_length.
  - apply Forall_forall. intros r Hr. apply repeat_spec in Hr. subst r. apply Forall_map. apply Forall_forall.
    intros k Hk. apply in_seq in Hk. unfold dim_width. destruct (Nat.leb_spec (nth k ns 0%nat) 1); [lra|].
    destruct (spread_range d xs ns k _ _ S Sp (proj2 Hk) (R k (proj2 Hk))) as [_ [E1|Lt]]; [lia|].
    apply Rgt_not_eq. apply the_width_pos; [assumption|]. apply Rgt_not_eq. apply Rdiv_lt_0_compat; [lra|].
    apply lt_0_INR. lia.
  - intros Z. apply (f_equal (@length _)) in Z. rewrite grid_length, map_map in Z. cbn in Z.
    assert (0 < prod (map (fun k => nth k ns 0%nat) (seq 0 d)))%nat.
    { apply prod_pos. apply Forall_map. apply Forall_forall. intros k Hk. apply in_seq in Hk.
      rewrite Forall_forall in P. apply P. apply nth_In. lia. }
    rewrite (map_ext _ (fun k => nth k ns 0%nat)) in Z by (intros; apply linspace_length). lia.
Qed.

Lemma bs_pos d xs ns h C W : basis d xs ns h C W -> (0 < length C)%nat.
Proof. intros B. pose proof (bs_NE _ _ _ _ _ _ B). destruct C; [contradiction|cbn; lia]. Qed.

(** centers and widths for which activations can be computed *)
Record kset (d : nat) (C W : list (list R)) : Prop := {
  k_C : Forall (fun r => length r = d) C;
  k_W : Forall (fun r => length r = d) W;
  k_nW : length W = length C;
  k_N : Forall (fun r => Forall (fun s => s <> 0) r) W;
  k_NE : C <> [] }.
Lemma basis_kset d xs ns h C W : basis d xs ns h C W -> kset d C W.
Proof. intros []. now split. Qed.

Section Basis.
Variables (ex : R -> R) (d : nat) (C W : list (list R)).
Hypothesis B : kset d C W.

Lemma fa_activations_ok ps nb X : lookup ps "centers" = Some (PArr (mat_arr (Mat d C))) ->
  lookup ps "widths" = Some (PArr (mat_arr (Mat d W))) -> Forall (fun r => length r = d) X ->
  fa_activations ex nb ps (Mat d X) = Ok (Mat (length C) (map (row_of ex C W nb) X)).
Proof.
  intros Lc Lw HX. unfold fa_activations, param_arr. rewrite Lc. cbn [bind].
  rewrite arr_input_mat by apply B. cbn [bind]. rewrite Lw. cbn [bind]. rewrite arr_input_mat by apply B. cbn [bind].
  apply activations_values; try apply B. assumption.
Qed.
Lemma raw_length x : length (raw ex C W x) = length C.
Proof. unfold raw. rewrite map2_length. pose proof (k_nW _ _ _ B). lia. Qed.
Lemma row_length nb x : length (row_of ex C W nb x) = length C.
Proof.
  unfold row_of. destruct nb; [|apply raw_length]. destruct (Nat.eqb_spec (length C) 1) as [->|]; [reflexivity|].
  rewrite normalize_length. apply raw_length.
Qed.
Lemma acts_wf nb X : mat_wf (Mat (length C) (map (row_of ex C W nb) X)).
Proof. unfold mat_wf. cbn. apply Forall_map. apply Forall_forall. intros; apply row_length. Qed.

(** ** weighted sums of activations *)
Lemma weighted_sum_ok X ws : length ws = length C ->
  weighted_sum (Mat (length C) (map (row_of ex C W false) X)) (Arr [length C; 1%nat] ws) =
  Ok (map (fun x => dot (raw ex C W x) ws) X).
Proof.
  intros Lw. unfold weighted_sum. cbn [mcols mrows]. unfold nrows. cbn [mrows]. rewrite map_length.
  rewrite (mapM_pure _ (fun ii => map (fun _ => nth ii ws 0) (seq 0 (length X)))).
  - cbn [bind]. f_equal. apply (nth_ext _ _ 0 0); rewrite !map_length, seq_length; [reflexivity|].
    intros i Hi. rewrite nth_map_seq by assumption.
    rewrite (nth_map_lt (fun x => dot (raw ex C W x) ws) X i [] 0) by assumption.
    rewrite (dot_sumn (length C)) by (try apply raw_length; assumption).
    apply sumn_ext. intros b Hb. unfold mget. cbn [mrows].
    rewrite (nth_map_lt (row_of ex C W false) X i [] []) by assumption. cbn [row_of]. f_equal.
    rewrite nth_map_seq by assumption. now rewrite nth_map_seq.
  - intros ii Hii. apply in_seq in Hii. apply mapM_pure. intros i _. unfold weight_at. cbn [ashape adata].
    destruct (Nat.ltb_spec ii (length C)); [reflexivity|lia].
Qed.
End Basis.

Lemma raw_gaussians d C W x : Forall (fun r => length r = d) C -> Forall (fun r => length r = d) W ->
  Forall (fun r => Forall (fun s => s <> 0) r) W -> length x = d -> raw exp C W x = gaussians C W x.
Proof.
  intros HC HW HN Lx. unfold raw, gaussians. revert W HW HN. induction HC as [|c C Hc _ IH]; intros [|w W] HW HN; try reflexivity.
  cbn. inversion HW; subst. inversion HN; subst. rewrite IH by assumption. f_equal.
  apply (kern_gaussian (length x)); congruence.
Qed.

(** ** RBFN *)
Section Rbfn.
Variables (d : nat) (xs : list (list R)) (ns : list nat) (h lam : R) (ys : list R) (t : input).
Hypothesis HS : samples d xs.
Hypothesis HD : (0 < d)%nat.
Hypothesis HP : per_dim d ns.
Hypothesis HSp : spread d xs ns.
Hypothesis Hh : 0 < h < 1.
Hypothesis Hlam : 0 <= lam.
Hypothesis Hys : length ys = length xs.
Hypothesis Ht : targets_are t ys.

Definition rbfn_ps (C W : list (list R)) (ws : list R) : list (string * pval) :=
  [("centers"%string, PArr (mat_arr (Mat d C))); ("widths"%string, PArr (mat_arr (Mat d W)));
   ("weights"%string, PArr (Arr [length C; 1%nat] ws))].

Lemma rbfn_predict_any C W ws X : kset d C W -> length ws = length C -> Forall (fun r => length r = d) X ->
  rbfn_predict exp (rbfn_ps C W ws) (Mat d X) = Ok (map (rbf_sum C W ws) X).
Proof.
  intros B Lw HX. unfold rbfn_predict. rewrite (fa_activations_ok exp d C W B) by (try reflexivity; assumption).
  cbn [bind]. unfold param_arr. cbn [lookup rbfn_ps String.eqb Ascii.eqb Bool.eqb]. cbn [bind].
  rewrite (weighted_sum_ok exp d C W B X ws Lw). f_equal. apply map_ext_in. intros x Hx.
  unfold rbf_sum. f_equal. apply (raw_gaussians d); try apply B. rewrite Forall_forall in HX. now apply HX.
Qed.
Lemma rbfn_predict_ok C W ws X : basis d xs ns h C W -> length ws = length C -> Forall (fun r => length r = d) X ->
  rbfn_predict exp (rbfn_ps C W ws) (Mat d X) = Ok (map (rbf_sum C W ws) X).
Proof. intros B. apply rbfn_predict_any. exact (basis_kset _ _ _ _ _ _ B). Qed.
Lemma column_weights (l : list R) : mat_arr (Mat 1 (map (fun x => [x]) l)) = Arr [length l; 1%nat] l.
Proof.
  unfold mat_arr, nrows. cbn [mrows mcols]. rewrite map_length. f_equal. induction l; cbn; [reflexivity|]. now rewrite IHl.
Qed.
Lemma reshape_column n l : length l = n -> (0 < n)%nat -> reshape n l = Ok (Mat 1 (map (fun x => [x]) l)).
Proof.
  intros <- H. unfold reshape. destruct (length l) as [|k] eqn:E; [lia|]. rewrite <- E, Nat.mod_same, Nat.div_same by lia.
  cbn [Nat.eqb]. f_equal. f_equal. clear. induction l; cbn; [reflexivity|]. now rewrite IHl.
Qed.

Lemma ones_nth n i : (i < n)%nat -> nth i (ones n) 0 = 1.
Proof. intros H. unfold ones. now rewrite (nth_indep _ 0 1), nth_repeat by (rewrite repeat_length; assumption). Qed.

Definition act_mat C W : mat := Mat (length C) (map (fun x => raw exp C W x) xs).

Lemma act_mat_nrows C W : nrows (act_mat C W) = length xs.
Proof. unfold act_mat, nrows. cbn. apply map_length. Qed.
Lemma xs_pos : (0 < length xs)%nat.
Proof. destruct HS as [NE _]. destruct xs; [contradiction|cbn; lia]. Qed.
Lemma act_mat_wf C W : basis d xs ns h C W -> mat_wf (act_mat C W).
Proof. intros B. exact (acts_wf exp d C W (basis_kset _ _ _ _ _ _ B) false xs). Qed.

Lemma rbfn_train_eq C W : basis d xs ns h C W ->
  rbfn_train exp ns h lam t (Mat d xs) =
  let* wls := wls_train false lam None t (act_mat C W) in
  let* slope := param_arr wls "slope" in
  let* weights := reshape (length C) (adata slope) in
  Ok [("centers"%string, PArr (mat_arr (Mat d C))); ("widths"%string, PArr (mat_arr (Mat d W))); ("weights"%string, PArr (mat_arr weights))].
Proof.
  intros B. unfold rbfn_train. rewrite (bs_eq _ _ _ _ _ _ B). cbn [bind].
  rewrite (fa_activations_ok exp d C W (basis_kset _ _ _ _ _ _ B)) by (try reflexivity; apply HS). cbn [bind].
  change (Mat (length C) (map (row_of exp C W false) xs)) with (act_mat C W).
  unfold as_columns. pose proof (act_mat_nrows C W) as N. unfold nrows in N. pose proof xs_pos.
  destruct (mrows (act_mat C W)) eqn:E; [cbn in N; lia|]. cbn [bind]. rewrite <- (bs_n _ _ _ _ _ _ B). reflexivity.
Qed.

Lemma objective_rbf C W v : basis d xs ns h C W -> length v = length C ->
  objective (mrows (act_mat C W)) ys (ones (length xs)) lam v 0 = rbf_error C W xs ys lam v.
Proof.
  intros B Lv. unfold objective, rbf_error, wsse. cbn [act_mat mrows]. rewrite map_length. f_equal; [|ring].
  apply sumn_ext. intros i Hi. f_equal. f_equal. f_equal.
  rewrite (nth_map_lt (fun x => raw exp C W x) xs i [] []) by assumption.
  unfold affine, rbf_sum. rewrite Rplus_0_r. f_equal. apply (raw_gaussians d); try apply B.
  destruct HS as [_ F]. rewrite Forall_forall in F. apply F. now apply nth_In.
Qed.

Lemma rbfn_fit ps : rbfn_train exp ns h lam t (Mat d xs) = Ok ps ->
  exists C W ws, basis d xs ns h C W /\ length ws = length C /\ ps = rbfn_ps C W ws /\
    forall v, length v = length C ->
      rbf_error C W xs ys lam ws <= rbf_error C W xs ys lam v /\
      (rbf_error C W xs ys lam v = rbf_error C W xs ys lam ws -> v = ws).
Proof.
  destruct (basis_exists d xs ns h HS HD HP HSp Hh) as (C & W & B). rewrite (rbfn_train_eq C W B). intros E.
  destruct (wls_train false lam None t (act_mat C W)) as [wls|] eqn:Ew; cbn [bind] in E; [|discriminate].
  pose proof xs_pos as XP.
  destruct (fit_best false lam (act_mat C W) (length C) (act_mat_wf C W B) eq_refl None ys
              ltac:(rewrite act_mat_nrows; assumption) I ltac:(rewrite act_mat_nrows; assumption) Hlam
              ltac:(intros; cbn; lra) t wls Ht Ew) as (s & o & (Ls & Ho & Bst) & ->).
  exists C, W, s. split; [assumption|]. split; [assumption|]. split.
  - unfold fit_params, coeff_list, param_arr in E. cbn [lookup String.eqb Ascii.eqb Bool.eqb bind] in E.
    assert (Ea : adata (beta_arr t s) = s) by (destruct Ht as [-> | ->]; reflexivity). rewrite Ea in E.
    rewrite reshape_column in E; [|assumption|]. 2: { exact (bs_pos _ _ _ _ _ _ B). }
    cbn [bind] in E. rewrite column_weights, Ls in E. unfold rbfn_ps. congruence.
  - intros v Lv. rewrite (Ho eq_refl) in Bst. cbn [weights_of] in Bst. rewrite act_mat_nrows in Bst.
    destruct (Bst v 0 Lv (fun _ => eq_refl)) as [B1 B2]. rewrite !(objective_rbf C W) in B1, B2 by assumption.
    split; [exact B1|]. intros Q. now apply B2.
Qed.
Lemma rbfn_train_ok C W : basis d xs ns h C W ->
  (is_ok (rbfn_train exp ns h lam t (Mat d xs)) <->
   0 < lam \/ forall v, length v = length C -> (forall x, In x xs -> rbf_sum C W v x = 0) -> v = repeat 0 (length C)) /\
  (forall e, rbfn_train exp ns h lam t (Mat d xs) = Err e -> e = LinAlgError).
Proof.
  intros B. rewrite (rbfn_train_eq C W B). pose proof xs_pos as XP.
  destruct (fit_ok false lam (act_mat C W) (length C) (act_mat_wf C W B) eq_refl None ys
              ltac:(rewrite act_mat_nrows; assumption) I ltac:(rewrite act_mat_nrows; assumption) Hlam
              ltac:(intros; cbn; lra) t Ht) as [F1 F2].
  assert (Suc : forall wls, wls_train false lam None t (act_mat C W) = Ok wls ->
    exists ps, (let* slope := param_arr wls "slope" in let* weights := reshape (length C) (adata slope) in
      Ok [("centers"%string, PArr (mat_arr (Mat d C))); ("widths"%string, PArr (mat_arr (Mat d W))); ("weights"%string, PArr (mat_arr weights))]) = Ok ps).
  { intros wls Ew.
    destruct (fit_best false lam (act_mat C W) (length C) (act_mat_wf C W B) eq_refl None ys
              ltac:(rewrite act_mat_nrows; assumption) I ltac:(rewrite act_mat_nrows; assumption) Hlam
              ltac:(intros; cbn; lra) t wls Ht Ew) as (s & o & (Ls & Ho & Bst) & ->).
    unfold fit_params, coeff_list, param_arr. cbn [lookup String.eqb Ascii.eqb Bool.eqb bind].
    assert (Ea : adata (beta_arr t s) = s) by (destruct Ht as [-> | ->]; reflexivity). rewrite Ea.
    rewrite reshape_column; [|assumption|]. 2: { exact (bs_pos _ _ _ _ _ _ B). }
    cbn [bind]. eexists; reflexivity. }
  split.
  - transitivity (is_ok (wls_train false lam None t (act_mat C W))).
    { split.
      - intros [ps E]. destruct (wls_train false lam None t (act_mat C W)) as [wls|]; [eexists; reflexivity|discriminate].
      - intros [wls E]. rewrite E. cbn [bind]. exact (Suc wls E). }
    rewrite F1. cbn [weights_of]. rewrite act_mat_nrows.
    assert (Q : determined false (length C) (mrows (act_mat C W)) (ones (length xs)) <->
       forall v, length v = length C -> (forall x, In x xs -> rbf_sum C W v x = 0) -> v = repeat 0 (length C)).
    { assert (V : forall v i, (i < length xs)%nat -> affine v 0 (nth i (mrows (act_mat C W)) []) = rbf_sum C W v (nth i xs [])).
      { intros v i Hi. cbn [act_mat mrows]. rewrite (nth_map_lt (fun x => raw exp C W x) xs i [] []) by assumption.
        unfold affine, rbf_sum. rewrite Rplus_0_r. f_equal. apply (raw_gaussians d); try apply B.
        destruct HS as [_ F]. rewrite Forall_forall in F. apply F. now apply nth_In. }
      assert (LA : length (mrows (act_mat C W)) = length xs) by (cbn; apply map_length).
      split.
      - intros Det v Lv Z. destruct (Det v 0 Lv (fun _ => eq_refl)) as [E _]; [|exact E].
        rewrite LA. intros i Hi _. rewrite V by assumption. apply Z. now apply nth_In.
      - intros K v o Lv Ho Z. rewrite (Ho eq_refl) in *. split; [|reflexivity]. apply K; [assumption|].
        intros x Hx. apply (In_nth_lt xs x []) in Hx. destruct Hx as (i & Hi & <-). rewrite <- V by assumption.
        apply Z; [now rewrite LA|]. rewrite ones_nth by assumption. lra. }
    rewrite Q. reflexivity.
  - intros e E. destruct (wls_train false lam None t (act_mat C W)) as [wls|e'] eqn:Ew; cbn [bind] in E.
    + destruct (Suc wls eq_refl) as [ps Ep]. rewrite Ep in E. discriminate.
    + assert (e' = e) by congruence. subst. now apply F2.
Qed.
End Rbfn.
