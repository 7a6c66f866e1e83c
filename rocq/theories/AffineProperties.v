(** C108: training is linear: targets that are combinations of other targets give predictions that are the same combinations, and
    an affine image of a demonstration gives the affine image of the movement. *)
From Coq Require Import String.
From Verif Require Import Base BaseLemmas ParamModel FaModel FaSpec FaProofs FaProofs2 FaProofs12 FaProofs13 FaProofs15 FaExamples TrajModel TrajSpec DmpModel DmpSpec DmpExamples CppModel CppSpec CppProofs8
  TaskModel AffineSpec AffineProofs AffineProofs2 AffineProofs3 AffineProofs4.
Open Scope string_scope.
Open Scope list_scope.
Open Scope R_scope.

(** Weighted least squares: training with combined targets succeeds, and predicts the combined predictions for every batch of inputs. *)
Theorem C108_wls : forall u lam w d xs n a Y ys F F' f', FaSpec.samples d xs -> weights_fit w (length xs) ->
  (0 < n)%nat -> combination n a Y ys -> length ys = length xs ->
  (forall j, (j < n)%nat -> train (F j) (wls_train u lam w (In1 (Y j))) (In2 (Mat d xs)) = (F' j, Ok tt)) ->
  exists f'', train f' (wls_train u lam w (In1 ys)) (In2 (Mat d xs)) = (f'', Ok tt) /\
    forall X, X <> [] -> Forall (fun r => length r = d) X ->
      exists V vs, (forall j, (j < n)%nat -> predict (F' j) wls_predict (In2 (Mat d X)) = Ok (In1 (V j))) /\ predict f'' wls_predict (In2 (Mat d X)) = Ok (In1 vs) /\
        combination n a V vs.
Proof.
  intros u lam w d xs n a Y ys F F' f' [NE Sx] Hw. assert (Hp : (0 < length xs)%nat) by (destruct xs; [congruence|cbn; lia]).
  apply (api_linear input d xs (fun t => wls_train u lam w t) wls_predict In1 NE).
  - intros v v' ps L L'. now apply (wls_same u lam w (Mat d xs) d).
  - intros n0 a0 Y0 ys0 P ps X C L HX. now apply (wls_linear u lam w (Mat d xs) d).
Qed.
Print Assumptions C108_wls.
(** Radial basis function networks *)
Theorem C108_rbfn : forall d xs ns h lam n a Y ys F F' f', FaSpec.samples d xs -> (0 < d)%nat -> per_dim d ns -> spread d xs ns -> 0 < h < 1 ->
  (0 < n)%nat -> combination n a Y ys -> length ys = length xs ->
  (forall j, (j < n)%nat -> train (F j) (rbfn_train exp ns h lam (In1 (Y j))) (In2 (Mat d xs)) = (F' j, Ok tt)) ->
  exists f'', train f' (rbfn_train exp ns h lam (In1 ys)) (In2 (Mat d xs)) = (f'', Ok tt) /\
    forall X, X <> [] -> Forall (fun r => length r = d) X ->
      exists V vs, (forall j, (j < n)%nat -> predict (F' j) (rbfn_predict exp) (In2 (Mat d X)) = Ok (V j)) /\ predict f'' (rbfn_predict exp) (In2 (Mat d X)) = Ok vs /\
        combination n a V vs.
Proof.
  intros d xs ns h lam n a Y ys F F' f' Sx Hd Pd Sp Hh. destruct Sx as [NE Sx].
  apply (api_linear _ d xs (fun t => rbfn_train exp ns h lam t) (rbfn_predict exp) (fun v => v) NE).
  - intros v v' ps L L'. now apply (rbfn_same d xs ns h lam).
  - intros n0 a0 Y0 ys0 P ps X C L HX. now apply (rbfn_linear d xs ns h lam).
Qed.
Print Assumptions C108_rbfn.
(** Locally weighted regression *)
Theorem C108_lwr : forall d xs ns h lam n a Y ys F F' f', FaSpec.samples d xs -> (0 < d)%nat -> per_dim d ns -> spread d xs ns -> 0 < h < 1 ->
  (0 < n)%nat -> combination n a Y ys -> length ys = length xs ->
  (forall j, (j < n)%nat -> train (F j) (lwr_train exp ns h lam (In1 (Y j))) (In2 (Mat d xs)) = (F' j, Ok tt)) ->
  exists f'', train f' (lwr_train exp ns h lam (In1 ys)) (In2 (Mat d xs)) = (f'', Ok tt) /\
    forall X, X <> [] -> Forall (fun r => length r = d) X ->
      exists V vs, (forall j, (j < n)%nat -> predict (F' j) (lwr_predict exp) (In2 (Mat d X)) = Ok (V j)) /\ predict f'' (lwr_predict exp) (In2 (Mat d X)) = Ok vs /\
        combination n a V vs.
Proof.
  intros d xs ns h lam n a Y ys F F' f' Sx Hd Pd Sp Hh. destruct Sx as [NE Sx].
  apply (api_linear _ d xs (fun t => lwr_train exp ns h lam t) (lwr_predict exp) (fun v => v) NE).
  - intros v v' ps L L'. now apply (lwr_same d xs ns h lam).
  - intros n0 a0 Y0 ys0 P ps X C L HX. now apply (lwr_linear d xs ns h lam).
Qed.
Print Assumptions C108_lwr.
(** Gaussian process regression: the mean predictions *)
Theorem C108_gpr : forall d xs mx ls n a Y ys F F' f', FaSpec.samples d xs -> mx <> 0 -> length ls = d -> Forall (fun l => l <> 0) ls ->
  (0 < n)%nat -> combination n a Y ys -> length ys = length xs ->
  (forall j, (j < n)%nat -> train (F j) (gpr_train exp mx ls (In1 (Y j))) (In2 (Mat d xs)) = (F' j, Ok tt)) ->
  exists f'', train f' (gpr_train exp mx ls (In1 ys)) (In2 (Mat d xs)) = (f'', Ok tt) /\
    forall X, X <> [] -> Forall (fun r => length r = d) X ->
      exists V vs, (forall j, (j < n)%nat -> predict (F' j) (gpr_predict exp) (In2 (Mat d X)) = Ok (V j)) /\ predict f'' (gpr_predict exp) (In2 (Mat d X)) = Ok vs /\
        combination n a V vs.
Proof.
  intros d xs mx ls n a Y ys F F' f' Sx Hm Hl Hz. destruct Sx as [NE Sx].
  apply (api_linear _ d xs (fun t => gpr_train exp mx ls t) (gpr_predict exp) (fun v => v) NE).
  - intros v v' ps L L'. now apply (gpr_same d xs mx ls).
  - intros n0 a0 Y0 ys0 P ps X C L HX. now apply (gpr_linear d xs mx ls).
Qed.
Print Assumptions C108_gpr.
(** the targets 2 * [1; 2; 3; 5] - 3 * [0; 1; 0; 1] at the corners of the unit square *)
Definition c_targets (j : nat) : list R := match j with O => sqy | _ => [0; 1; 0; 1] end.
Definition c_coeffs (j : nat) : R := match j with O => 2 | _ => - 3 end.
Example C108_case : FaSpec.samples 2 sq /\ combination 2 c_coeffs c_targets [2; 1; 6; 7] /\ per_dim 2 [2; 2]%nat /\ spread 2 sq [2; 2]%nat /\ weights_fit None 4 /\
  (forall j, (j < 2)%nat -> is_ok (snd (train no_fa (wls_train true 0 None (In1 (c_targets j))) (In2 (Mat 2 sq))))) /\
  (forall j, (j < 2)%nat -> is_ok (snd (train no_fa (gpr_train exp 2 [1; 3] (In1 (c_targets j))) (In2 (Mat 2 sq))))).
Proof.
  split; [exact sq_samples|]. split.
  { split; [intros [|[|j]] Hj; [reflexivity..|lia]|]. intros k Hk. cbn in Hk. do 4 (destruct k as [|k]; [cbn; lra|]). lia. }
  split; [split; [reflexivity|repeat constructor]|]. split; [apply sq_grid|]. split; [exact I|]. split; intros j Hj.
  - assert (Wd : weighted_data 2 sq (c_targets j) (weights_or_ones None (length sq))).
    { split; [exact sq_samples|]. destruct j as [|[|j]]; [| |lia]; (repeat split; try reflexivity; repeat constructor; lra). }
    apply (wls_succeeds true 0 None 2 sq (c_targets j) (In1 (c_targets j)) Wd (Rle_refl 0) (or_introl eq_refl) no_fa). right. exact sq_det.
  - destruct (gpr_succeeds 2 sq (c_targets j) 2 [1; 3] (In1 (c_targets j)) sq_samples ltac:(destruct j as [|[|j]]; [reflexivity..|lia]) (or_introl eq_refl) ltac:(lra) eq_refl ltac:(repeat constructor; lra) no_fa) as [S _].
    apply S. exact sq_nodup.
Qed.

(** Demonstrations: a demonstration t' that is the image of the demonstration t under y |-> A y + b (in particular: moved, scaled,
    rotated, with dimensions dropped or repeated) gives a DMP whose movement, at all times, is the image of the movement learned from t. *)
Theorem C108_demonstration : forall kinds ns h lam A b n n' ty t t' fas fas' kw,
  (forall i, kinds i <> KOther) -> (forall i, (0 < ns i)%nat) -> (forall i, 0 < h i < 1) -> (forall i, 0 < lam i) ->
  ty = Kulvicius \/ ty = Countdown -> plain_kw kw -> opt (k_scaling kw) NoScaling = NoScaling ->
  image_traj A b n n' t t' -> same_settings A n n' kinds ns h lam ->
  0 < last (tj_ts t) 0 -> hd 0 (tj_ts t) < last (tj_ts t) 0 ->
  (n <= length fas)%nat -> Forall (fun f => is_trained f = false) fas -> (n' <= length fas')%nat -> Forall (fun f => is_trained f = false) fas' ->
  let pf := py_predict exp kinds in let tf := trainer kinds ns h lam in
  exists m m', from_traj pf tf ty t (Some fas) kw = Ok m /\ from_traj pf tf ty t' (Some fas') kw = Ok m' /\
    forall ts, ts <> [] -> exists q q', movement pf m ts = Ok q /\ movement pf m' ts = Ok q' /\ image_traj A b n n' q q' /\ tj_ts q = ts.
Proof.
  intros kinds ns h lam A b n n' ty t t' fas fas' kw Hk Hn Hh Hl Hty Kw Ks It Ss H1 H2 F1 F2 F3 F4 pf tf.
  now apply image_learned.
Qed.
Print Assumptions C108_demonstration.
(** a demonstration with two dimensions: 2 y + 5 and 1 - y *)
Definition c_A (i j : nat) : R := match i with O => 2 | _ => - 1 end.
Definition c_b (i : nat) : R := match i with O => 5 | _ => 1 end.
Definition c_demo : traj :=
  Traj [0; 1; 2; 3] (Some 1) 2 (Mat 2 [[5; 1]; [5; 1]; [7; 0]; [11; - 2]]) (Mat 2 [[0; 0]; [2; - 1]; [4; - 2]; [6; - 3]]) (Mat 2 [[2; - 1]; [2; - 1]; [2; - 1]; [2; - 1]]) None.
Example C108_demonstration_case : image_traj c_A c_b 1 2 ex_demo c_demo /\ same_settings c_A 1 2 (fun _ => KLwr) (fun _ => 3%nat) (fun _ => 0.7) (fun _ => 1) /\
  0 < last (tj_ts ex_demo) 0 /\ hd 0 (tj_ts ex_demo) < last (tj_ts ex_demo) 0 /\ plain_kw no_kw.
Proof.
  split.
  - split; [exact ex_is_demo|]. split; [repeat split; repeat constructor|]. split; [reflexivity|]. intros k i Hk Hi. cbn in Hk.
    destruct i as [|[|i]]; [| |lia]; (do 4 (destruct k as [|k]; [unfold image, no_shift, at_; cbn; lra|])); lia.
  - split; [intros i j _ _ _; repeat split|]. split; [cbn; lra|]. split; [cbn; lra|]. do 5 (split; [reflexivity|]). now exists 20.
Qed.
