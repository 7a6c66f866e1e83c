(** Gaussian process regression. *)
From Coq Require Import String.
From Verif Require Import Base BaseLemmas ParamModel FaModel FaSpec FaProofs FaProofs2 FaProofs3 FaProofs4 FaProofs5 FaProofs6 FaProofs7 FaProofs8 FaProofs9.
Open Scope list_scope.
Open Scope R_scope.

Lemma gaussian_sumn d c w x : length c = d -> length w = d -> length x = d ->
  gaussian c w x = exp (- sumn d (fun k => (nth k x 0 / nth k w 0 - nth k c 0 / nth k w 0)^2) / 2).
Proof.
  intros Lc Lw Lx. unfold gaussian. f_equal. f_equal. f_equal. rewrite rsum_nth, !map2_length, Lc, Lw, Lx, !Nat.min_id.
  apply sumn_ext. intros k Hk. rewrite (nth_map2 (fun d w => (d / w)^2) (map2 Rminus x c) w k 0 0) by (rewrite ?map2_length; lia).
  rewrite (nth_map2 Rminus x c k 0 0) by lia. unfold Rdiv. ring.
Qed.
Lemma NoDup_nth_ne {A} (l : list A) d : (forall i j, (i < length l)%nat -> (j < length l)%nat -> i <> j -> nth i l d <> nth j l d) -> NoDup l.
Proof.
  intros H. apply (NoDup_nth l d). intros i j Hi Hj E. destruct (Nat.eq_dec i j) as [|N]; [assumption|]. now destruct (H i j Hi Hj N).
Qed.
Lemma list_differ (a b : list R) : length a = length b -> a <> b -> exists k, (k < length a)%nat /\ nth k a 0 <> nth k b 0.
Proof.
  revert b. induction a as [|x a IH]; intros [|y b] L N; try discriminate; [contradiction|].
  destruct (Req_EM_T x y) as [->|E].
  - destruct (IH b) as (k & Hk & Nk); [now injection L|congruence|]. exists (S k). cbn. split; [lia|assumption].
  - exists 0%nat. cbn. split; [lia|assumption].
Qed.
Lemma list_rdec (a b : list R) : {a = b} + {a <> b}.
Proof. apply list_eq_dec. apply Req_EM_T. Qed.

Lemma nth_rep {A} (c d : A) n i : (i < n)%nat -> nth i (repeat c n) d = c.
Proof. intros H. rewrite (nth_indep _ d c) by (rewrite repeat_length; assumption). apply nth_repeat. Qed.

Section Gpr.
Variables (d : nat) (xs : list (list R)) (mx : R) (ls : list R) (ys : list R) (t : input).
Hypothesis HS : samples d xs.
Hypothesis Hmx : mx <> 0.
Hypothesis Hls : length ls = d.
Hypothesis Hnz : Forall (fun l => l <> 0) ls.
Hypothesis Hys : length ys = length xs.
Hypothesis Ht : targets_are t ys.
Let n := length xs.
Let WS := repeat ls n.

Definition gpr_ps : list (string * pval) :=
  [("inputs"%string, PArr (mat_arr (Mat d xs))); ("lengths"%string, PArr (mat_arr (Mat d (repeat ls n))));
   ("max_covariance"%string, PFloat mx)].
Definition weights_arr (ws : list R) : arr := beta_arr t ws.

Lemma ws_wf : Forall (fun r => length r = d) WS.
Proof. apply Forall_forall. intros r Hr. apply repeat_spec in Hr. now subst r. Qed.
Lemma ws_nz : Forall (fun r => Forall (fun s => s <> 0) r) WS.
Proof. apply Forall_forall. intros r Hr. apply repeat_spec in Hr. now subst r. Qed.
Lemma graw_length x : length (raw exp xs WS x) = n.
Proof. unfold raw, WS. rewrite map2_length, repeat_length. fold n. lia. Qed.

Definition gacts (X : list (list R)) : mat := mscal mx (Mat n (map (raw exp xs WS) X)).
Lemma gpr_activations_ok ps X : lookup ps "inputs" = Some (PArr (mat_arr (Mat d xs))) ->
  lookup ps "lengths" = Some (PArr (mat_arr (Mat d WS))) -> lookup ps "max_covariance" = Some (PFloat mx) ->
  Forall (fun r => length r = d) X -> gpr_activations exp ps (Mat d X) = Ok (gacts X).
Proof.
  intros L1 L2 L3 HX. unfold gpr_activations, param_arr. rewrite L1. cbn [bind]. rewrite arr_input_mat by apply HS.
  cbn [bind]. rewrite L2. cbn [bind]. rewrite arr_input_mat by apply ws_wf. cbn [bind].
  rewrite activations_values; try assumption; try apply HS; try apply ws_wf; try apply ws_nz.
  - cbn [bind]. rewrite L3. reflexivity.
  - unfold WS. now rewrite repeat_length.
Qed.
Lemma gacts_get X i j : (i < length X)%nat -> (j < n)%nat ->
  mget (gacts X) i j = mx * nth j (raw exp xs WS (nth i X [])) 0.
Proof.
  intros Hi Hj. unfold gacts, mscal. rewrite mget_mtab; [|unfold nrows; cbn; now rewrite map_length|assumption].
  f_equal. unfold mget. cbn [mrows]. now rewrite (nth_map_lt (raw exp xs WS) X i [] []).
Qed.
Lemma gacts_nrows X : nrows (gacts X) = length X.
Proof. unfold gacts, mscal. rewrite nrows_mtab. unfold nrows. cbn. apply map_length. Qed.
Lemma raw_nth x j : length x = d -> (j < n)%nat -> nth j (raw exp xs WS x) 0 = gaussian (nth j xs []) ls x.
Proof.
  intros Lx Hj. rewrite (raw_gaussians d); [|apply HS|apply ws_wf|apply ws_nz|assumption].
  unfold gaussians. rewrite (nth_map2 _ xs WS j [] [] 0); [|exact Hj|unfold WS; rewrite repeat_length; exact Hj].
  f_equal. unfold WS. now apply nth_rep.
Qed.
Lemma gx_row i : (i < n)%nat -> length (nth i xs []) = d.
Proof. intros Hi. destruct HS as [_ F]. rewrite Forall_forall in F. apply F. now apply nth_In. Qed.

(** ** the Gram matrix is regular iff the inputs are distinct *)
Lemma gram_regular : NoDup xs -> exists b, inv (gacts xs) = Ok b.
Proof.
  intros ND. apply inv_total; [rewrite gacts_nrows; reflexivity|]. rewrite gacts_nrows. fold n. intros v Z.
  set (x := fun i k => nth k (nth i xs []) 0 / nth k ls 0).
  apply (gaussian_kernel_regular n d x v).
  - intros i j Hi Hj Nij. destruct (list_differ (nth i xs []) (nth j xs [])) as (k & Hk & Nk).
    + rewrite !gx_row by assumption. reflexivity.
    + intros E. apply Nij. apply (proj1 (NoDup_nth xs []) ND); assumption.
    + rewrite gx_row in Hk by assumption. exists k. split; [assumption|]. unfold x.
      assert (nth k ls 0 <> 0). { rewrite Forall_forall in Hnz. apply Hnz. apply nth_In. lia. }
      intros E. apply Nk. apply (Rmult_eq_reg_r (/ nth k ls 0)); [exact E|]. now apply Rinv_neq_0_compat.
  - intros i Hi. apply (Rmult_eq_reg_l mx); [|assumption]. rewrite Rmult_0_r, <- (Z i Hi), <- sumn_scal.
    apply sumn_ext. intros j Hj. rewrite gacts_get by assumption. rewrite raw_nth by (try apply gx_row; assumption).
    rewrite (gaussian_sumn d) by (try apply gx_row; assumption). unfold x. ring.
Qed.
Lemma gram_singular : ~ NoDup xs -> inv (gacts xs) = Err LinAlgError.
Proof.
  intros ND.
  assert (Ex : exists i j, (i < n)%nat /\ (j < n)%nat /\ i <> j /\ nth i xs [] = nth j xs []).
  { destruct (Classical_Prop.classic (exists i j, (i < n)%nat /\ (j < n)%nat /\ i <> j /\ nth i xs [] = nth j xs [])) as [|N]; [assumption|].
    exfalso. apply ND. apply (NoDup_nth_ne xs []). intros i j Hi Hj Nij E. apply N. exists i, j. auto. }
  destruct Ex as (i0 & j0 & Hi & Hj & Nij & E).
  apply (inv_singular _ (fun k => delta i0 k - delta j0 k) i0).
  - rewrite gacts_nrows. reflexivity.
  - rewrite gacts_nrows. exact Hi.
  - unfold delta. rewrite Nat.eqb_refl. destruct (Nat.eqb_spec j0 i0); [congruence|]. lra.
  - rewrite gacts_nrows. fold n. intros i Hi'.
    transitivity (sumn n (fun k => delta i0 k * mget (gacts xs) i k) - sumn n (fun k => delta j0 k * mget (gacts xs) i k)).
    { rewrite <- sumn_minus. apply sumn_ext. intros; ring. }
    rewrite !sumn_delta_l by assumption. rewrite !gacts_get by assumption.
    rewrite !raw_nth by (try apply gx_row; assumption). rewrite E. ring.
Qed.

Lemma gpr_train_eq : gpr_train exp mx ls t (Mat d xs) =
  let* b := inv (gacts xs) in
  Ok (gpr_ps ++ [("gram_inv_targets"%string,
       PArr (weights_arr (map (fun i => sumn n (fun k => mget b i k * nth k ys 0)) (seq 0 n))))]).
Proof.
  unfold gpr_train. cbn [mcols]. rewrite Hls, Nat.eqb_refl. cbn [bind]. unfold nrows at 1 2. cbn [mrows]. fold n.
  change [("inputs"%string, PArr (mat_arr (Mat d xs))); ("lengths"%string, PArr (mat_arr (Mat d (repeat ls n))));
   ("max_covariance"%string, PFloat mx)] with gpr_ps.
  rewrite gpr_activations_ok by (try reflexivity; apply HS). cbn [bind].
  destruct (inv (gacts xs)) as [b|] eqn:I; cbn [bind]; [|reflexivity].
  destruct (inv_ok _ _ I) as (_ & Nb & Cb & _ & _). rewrite gacts_nrows in Nb, Cb. fold n in Nb, Cb.
  assert (T : nrows (targets_column t) = n /\ mcols (targets_column t) = 1%nat /\
              forall k, (k < n)%nat -> mget (targets_column t) k 0 = nth k ys 0).
  { destruct Ht as [-> | ->]; unfold nrows; cbn; rewrite map_length; (split; [exact Hys|split; [reflexivity|]]);
      intros k Hk; unfold mget; cbn [mrows]; rewrite (nth_map_lt (fun x => [x]) ys k 0 []) by (rewrite Hys; exact Hk); reflexivity. }
  destruct T as (T1 & T2 & T3). rewrite mmul_ok by congruence. cbn [bind]. rewrite Cb, Nb, T2.
  unfold weights_arr. f_equal. f_equal. f_equal. f_equal. f_equal.
  set (f := fun i j : nat => _).
  assert (Q : List.concat (mrows (mtab n 1 f)) = map (fun i => sumn n (fun k => mget b i k * nth k ys 0)) (seq 0 n)).
  { rewrite concat_col. apply map_ext. intros i. unfold f. apply sumn_ext. intros k Hk. now rewrite T3. }
  destruct Ht as [-> | ->].
  - unfold vec_arr, beta_arr. now rewrite Q.
  - unfold mat_arr, beta_arr. rewrite Q, nrows_mtab, map_length, seq_length. reflexivity.
Qed.
Lemma gpr_train_ok : (is_ok (gpr_train exp mx ls t (Mat d xs)) <-> NoDup xs) /\
  (forall e, gpr_train exp mx ls t (Mat d xs) = Err e -> e = LinAlgError).
Proof.
  rewrite gpr_train_eq. split.
  - split.
    + intros [ps E]. destruct (Classical_Prop.classic (NoDup xs)) as [|N]; [assumption|]. rewrite gram_singular in E by assumption. discriminate.
    + intros ND. destruct (gram_regular ND) as [b ->]. eexists; reflexivity.
  - intros e. destruct (inv (gacts xs)) as [b|e0] eqn:I; cbn [bind]; [discriminate|].
    destruct (inv_err _ _ ltac:(rewrite gacts_nrows; reflexivity) I) as [-> _]. congruence.
Qed.
Lemma gpr_fit ps : gpr_train exp mx ls t (Mat d xs) = Ok ps ->
  exists ws, length ws = n /\
    (forall X, Forall (fun r => length r = d) X ->
       gpr_predict exp ps (Mat d X) = Ok (map (fun x => mx * rbf_sum xs (repeat ls n) ws x) X)) /\
    gpr_predict exp ps (Mat d xs) = Ok ys.
Proof.
  rewrite gpr_train_eq. destruct (inv (gacts xs)) as [b|] eqn:I; cbn [bind]; [|discriminate]. intros E.
  set (ws := map (fun i => sumn n (fun k => mget b i k * nth k ys 0)) (seq 0 n)) in *.
  assert (Lw : length ws = n) by (unfold ws; now rewrite map_length, seq_length).
  assert (Lps : ps = gpr_ps ++ [("gram_inv_targets"%string, PArr (weights_arr ws))]) by congruence. clear E. subst ps.
  assert (P : forall X, Forall (fun r => length r = d) X ->
    gpr_predict exp (gpr_ps ++ [("gram_inv_targets"%string, PArr (weights_arr ws))]) (Mat d X) =
    Ok (map (fun i => sumn n (fun j => mget (gacts X) i j * nth j ws 0)) (seq 0 (length X)))).
  { intros X HX. unfold gpr_predict, param_arr. cbn [lookup gpr_ps app String.eqb Ascii.eqb Bool.eqb bind].
    rewrite gpr_activations_ok by (try reflexivity; assumption). cbn [bind].
    unfold weighted_sum. rewrite gacts_nrows. change (mcols (gacts X)) with n.
    rewrite (mapM_pure _ (fun ii => map (fun _ => nth ii ws 0) (seq 0 (length X)))).
    - cbn [bind]. f_equal. apply map_ext_in. intros i Hi. apply in_seq in Hi. apply sumn_ext. intros j Hj. f_equal.
      rewrite nth_map_seq by assumption. now rewrite nth_map_seq by lia.
    - intros j Hj. apply in_seq in Hj. apply mapM_pure. intros i Hi. apply in_seq in Hi. unfold weight_at, weights_arr, beta_arr.
      destruct Ht as [-> | ->]; cbn [ashape adata].
      + apply nth_res_ok. lia.
      + rewrite Lw. destruct (Nat.ltb_spec j n); [reflexivity|lia]. }
  exists ws. split; [assumption|]. split.
  - intros X HX. rewrite P by assumption. f_equal. apply (nth_ext _ _ 0 0); rewrite !map_length, seq_length; [reflexivity|].
    intros i Hi. rewrite nth_map_seq by assumption.
    rewrite (nth_map_lt (fun x => mx * rbf_sum xs (repeat ls n) ws x) X i [] 0) by assumption.
    assert (Lx : length (nth i X []) = d). { rewrite Forall_forall in HX. apply HX. now apply nth_In. }
    unfold rbf_sum. rewrite <- (raw_gaussians d); [|apply HS|apply ws_wf|apply ws_nz|assumption].
    rewrite (dot_sumn n) by (try apply graw_length; assumption). rewrite <- sumn_scal. apply sumn_ext. intros j Hj.
    rewrite gacts_get by assumption. unfold WS. ring.
  - rewrite P by apply HS. f_equal. fold n. apply (nth_ext _ _ 0 0); rewrite map_length, seq_length; [symmetry; exact Hys|].
    intros i Hi. rewrite nth_map_seq by assumption.
    destruct (inv_ok _ _ I) as (_ & _ & _ & _ & V). rewrite gacts_nrows in V. fold n in V.
    transitivity (sumn n (fun k => sumn n (fun j => mget (gacts xs) i j * mget b j k) * nth k ys 0)).
    + transitivity (sumn n (fun j => sumn n (fun k => mget (gacts xs) i j * mget b j k * nth k ys 0))).
      * apply sumn_ext. intros j Hj. unfold ws. rewrite nth_map_seq by assumption. rewrite <- sumn_scal. apply sumn_ext. intros; ring.
      * rewrite sumn_swap. apply sumn_ext. intros k Hk. now rewrite sumn_scal_r.
    + rewrite (sumn_ext _ _ (fun k => delta i k * nth k ys 0)).
      * now rewrite sumn_delta_l.
      * intros k Hk. now rewrite (proj1 (V i k Hi Hk)).
Qed.
End Gpr.
