From Coq Require Import String.
From Verif Require Import Base BaseLemmas SessionModel UpdatersModel UpdatersSpec UpdatersProofs UpdatersProofs2 UpdatersProofs3 UpdatersProofs4 UpdatersProofs5
  LoopModel LoopSpec EquivSpec.
Open Scope R_scope.

Lemma affine_row_length c v row : length row = length v -> length (affine_row c v row) = length v.
Proof. intros H. unfold affine_row. rewrite map2_length, H. apply Nat.min_id. Qed.
Lemma affine_row_nth c v row j : length row = length v -> (j < length v)%nat ->
  nth j (affine_row c v row) 0 = c * nth j row 0 + nth j v 0.
Proof. intros H Hj. unfold affine_row. exact (nth_map2 (fun x s => c * x + s) row v j 0 0 0 ltac:(lia) ltac:(lia)). Qed.

Lemma map_set_nth {A B} (f : A -> B) l : forall i v, map f (set_nth l i v) = set_nth (map f l) i (f v).
Proof. induction l as [|x l IH]; intros [|i] v; cbn; f_equal; auto. Qed.
Lemma mscal_mtab k n m f : mscal k (mtab n m f) = mtab n m (fun i j => k * f i j).
Proof.
  unfold mscal, mtab. cbn. f_equal. rewrite map_map. apply map_ext. intros i. now rewrite map_map.
Qed.
Lemma mtab_ext n m f g : (forall i j, f i j = g i j) -> mtab n m f = mtab n m g.
Proof. intros H. unfold mtab. f_equal. apply map_ext. intros i. apply map_ext. intros j. apply H. Qed.
Lemma mscal_mset k m i j v : mset (mscal k m) i j (k * v) = mscal k (mset m i j v).
Proof.
  unfold mset, mscal. cbn. f_equal. rewrite map_set_nth, map_set_nth. f_equal. f_equal.
  change (@nil R) with (map (fun x => k * x) []). now rewrite map_nth.
Qed.
Lemma mscal_cols k m : mcols (mscal k m) = mcols m.
Proof. reflexivity. Qed.
Lemma mscal_nrows k m : nrows (mscal k m) = nrows m.
Proof. unfold nrows, mscal. cbn. apply map_length. Qed.

Lemma keep_diag_scal k m : keep_diag (mscal k m) = mscal k (keep_diag m).
Proof.
  unfold keep_diag. rewrite mscal_mtab, mscal_cols. apply mtab_ext. intros i j. destruct (Nat.eqb i j); [apply mget_mscal|ring].
Qed.
Lemma lowpass_scal k lr a b : lowpass lr (mscal k a) (mscal k b) = mscal k (lowpass lr a b).
Proof.
  unfold lowpass. rewrite mscal_mtab, mscal_cols. apply mtab_ext. intros i j. rewrite !mget_mscal. ring.
Qed.
Lemma level_scal c lv i : level_at (scale_level c lv) i = res_map (fun l => c * c * l) (level_at lv i).
Proof.
  destruct lv as [r|a]; cbn [scale_level level_at].
  - cbn. f_equal. ring.
  - unfold nth_res. rewrite nth_error_map. destruct (nth_error a i); cbn; [|reflexivity]. f_equal. ring.
Qed.
Lemma clamp_max_scal c lv iis : 0 < c -> forall m,
  clamp_max_loop (scale_level c lv) iis (mscal (c * c) m) = res_map (mscal (c * c)) (clamp_max_loop lv iis m).
Proof.
  intros Hc. assert (Hk : 0 < c * c) by nra. induction iis as [|i iis IH]; intros m; [reflexivity|].
  cbn [clamp_max_loop]. rewrite level_scal. destruct (level_at lv i) as [l|]; [|reflexivity]. cbn [res_map bind].
  rewrite <- IH. f_equal. rewrite mget_mscal.
  destruct (Rlt_dec l (mget m i i)) as [H|H], (Rlt_dec (c * c * l) (c * c * mget m i i)) as [H'|H']; try nra.
  - apply mscal_mset.
  - reflexivity.
Qed.
Lemma clamp_min_scal c lv iis : 0 < c -> forall m,
  clamp_min_loop (scale_level c lv) iis (mscal (c * c) m) = res_map (mscal (c * c)) (clamp_min_loop lv iis m).
Proof.
  intros Hc. assert (Hk : 0 < c * c) by nra. induction iis as [|i iis IH]; intros m; [reflexivity|].
  cbn [clamp_min_loop]. rewrite level_scal. destruct (level_at lv i) as [l|]; [|reflexivity]. cbn [res_map bind].
  rewrite <- IH. f_equal. rewrite mget_mscal.
  destruct (Rlt_dec (mget m i i) l) as [H|H], (Rlt_dec (c * c * mget m i i) (c * c * l)) as [H'|H']; try nra.
  - apply mscal_mset.
  - reflexivity.
Qed.

Lemma average_affine c v samples w : mat_wf samples -> length v = mcols samples ->
  average_rows (affine_mat c v samples) w = res_map (affine_row c v) (average_rows samples w).
Proof.
  intros Hwf Hv. unfold average_rows. unfold nrows. cbn [affine_mat mrows mcols]. rewrite map_length.
  destruct (Nat.eqb_spec (length w) (length (mrows samples))) as [Hl|]; cbn [negb]; [|reflexivity].
  destruct (Req_EM_T (rsum w) 0) as [|Hs]; [reflexivity|]. cbn [res_map]. f_equal.
  apply (nth_ext _ _ 0 0).
  { rewrite affine_row_length; rewrite !map_length, !seq_length; auto. }
  rewrite map_length, seq_length. intros j Hj. rewrite nth_map_seq by exact Hj.
  rewrite affine_row_nth; [|now rewrite map_length, seq_length|lia]. rewrite nth_map_seq by exact Hj.
  set (N := length w) in *.
  rewrite (rsum_map2_sumn _ _ _ N 0 []) by (auto; now rewrite map_length).
  rewrite (rsum_map2_sumn _ _ (mrows samples) N 0 []) by auto.
  rewrite (sumn_ext N _ (fun s => c * (nth s w 0 * nth j (nth s (mrows samples) []) 0) + nth s w 0 * nth j v 0)).
  - rewrite sumn_plus, sumn_scal_r, sumn_scal. unfold N at 2. rewrite <- rsum_nth. field. exact Hs.
  - intros s Hsl. rewrite (nth_map_lt _ _ _ []) by lia. rewrite affine_row_nth; [ring| |lia].
    rewrite (mat_wf_row samples); [lia|exact Hwf|unfold nrows; lia].
Qed.

Lemma map2_minus_affine c v row mean : length row = length v -> length mean = length v ->
  map2 Rminus (affine_row c v row) (affine_row c v mean) = map (fun x => c * x) (map2 Rminus row mean).
Proof.
  unfold affine_row. revert v mean; induction row as [|x row IH]; intros [|y v] [|z mean]; cbn;
    intros H1 H2; try discriminate; [reflexivity|].
  f_equal; [ring|]. apply IH; congruence.
Qed.
Lemma nth_scal c i (l : list R) : nth i (map (fun x => c * x) l) 0 = c * nth i l 0.
Proof. replace 0 with (c * 0) at 1 by ring. now rewrite (map_nth (fun x => c * x)). Qed.
Lemma scatter_affine c v mean samples w : mat_wf samples -> length v = mcols samples -> length mean = mcols samples ->
  scatter (affine_row c v mean) (affine_mat c v samples) w = mscal (c * c) (scatter mean samples w).
Proof.
  intros Hwf Hv Hm. unfold scatter. rewrite mscal_mtab. cbn [affine_mat mcols mrows]. rewrite map_map.
  assert (E : map (fun row => map2 Rminus (affine_row c v row) (affine_row c v mean)) (mrows samples) =
              map (fun row => map (fun x => c * x) (map2 Rminus row mean)) (mrows samples)).
  { apply map_ext_in. intros row Hr. apply map2_minus_affine; [|lia].
    unfold mat_wf in Hwf. rewrite Forall_forall in Hwf. rewrite Hwf by exact Hr. lia. }
  rewrite E. apply mtab_ext. intros i j. clear E Hwf. revert w.
  induction (mrows samples) as [|row rows IH]; intros [|x w]; cbn [map map2 rsum]; try ring.
  rewrite IH, !nth_scal. ring.
Qed.

(** the update of the transformed distribution is the transformed update *)
Definition affine_pair c v (p : dist * list R) : dist * list R := (affine_dist c v (fst p), snd p).
Lemma update_affine argsort u c v d samples costs : 0 < c ->
  mat_wf samples -> length v = mcols samples -> length (d_mean d) = mcols samples ->
  update_distribution argsort (scale_updater c u) (affine_dist c v d) (affine_mat c v samples) costs =
  res_map (affine_pair c v) (update_distribution argsort u d samples costs).
Proof.
  intros Hc Hwf Hv Hm. destruct u as [m e|m e dc|a]; cbn [update_distribution scale_updater].
  - unfold update_mean. destruct (costs_to_weights _ _ _ _) as [w|]; cbn [bind]; [|reflexivity].
    rewrite average_affine by assumption. destruct (average_rows samples w); reflexivity.
  - unfold update_covar_decay. destruct (costs_to_weights _ _ _ _) as [w|]; cbn [bind]; [|reflexivity].
    rewrite average_affine by assumption. destruct (average_rows samples w); [|reflexivity]. cbn [res_map bind].
    unfold affine_pair, affine_dist. cbn [fst snd d_mean d_covar d_bounds]. rewrite !mscal_mscal, Rmult_comm. reflexivity.
  - unfold update_covar_adapt. cbn [ca_method ca_elit ca_max ca_min ca_diag_only ca_lr].
    destruct (costs_to_weights _ _ _ _) as [w|]; cbn [bind]; [|reflexivity].
    rewrite average_affine by assumption. destruct (average_rows samples w) as [mn|]; [|reflexivity]. cbn [res_map bind].
    cbn [affine_dist d_mean d_covar d_bounds]. rewrite affine_row_length by lia. rewrite scatter_affine by assumption.
    replace (mcols (affine_mat c v samples)) with (mcols samples) by reflexivity.
    rewrite Hv, Hm, Nat.eqb_refl. cbn [negb].
    rewrite mscal_nrows, mscal_cols.
    assert (E2 : (if ca_diag_only a then keep_diag (mscal (c * c) (scatter (d_mean d) samples w)) else mscal (c * c) (scatter (d_mean d) samples w))
               = mscal (c * c) (if ca_diag_only a then keep_diag (scatter (d_mean d) samples w) else scatter (d_mean d) samples w)).
    { destruct (ca_diag_only a); [apply keep_diag_scal|reflexivity]. }
    rewrite E2. set (c2 := if ca_diag_only a then _ else scatter (d_mean d) samples w).
    set (c3 := if Rlt_dec (ca_lr a) 1 then
                 if ((nrows (d_covar d) =? mcols samples)%nat && (mcols (d_covar d) =? mcols samples)%nat)%bool
                 then Ok (lowpass (ca_lr a) (d_covar d) c2) else Err Unmodelled else Ok c2).
    match goal with |- (let* c3 := ?x in _) = _ => assert (E3 : x = res_map (mscal (c * c)) c3) end.
    { unfold c3. destruct (Rlt_dec (ca_lr a) 1); [|reflexivity].
      destruct ((nrows (d_covar d) =? mcols samples)%nat && _)%bool; [|reflexivity]. cbn [res_map]. now rewrite lowpass_scal. }
    rewrite E3. destruct c3 as [m3|]; [|reflexivity]. cbn [res_map bind].
    assert (E4 : (match option_map (scale_level c) (ca_max a) with
                  | Some lv => clamp_max_loop lv (seq 0 (mcols samples)) (mscal (c * c) m3) | None => Ok (mscal (c * c) m3) end) =
                 res_map (mscal (c * c)) (match ca_max a with Some lv => clamp_max_loop lv (seq 0 (mcols samples)) m3 | None => Ok m3 end)).
    { destruct (ca_max a); [apply clamp_max_scal; exact Hc|reflexivity]. }
    rewrite E4. destruct (match ca_max a with Some _ => _ | None => _ end) as [m4|]; [|reflexivity]. cbn [res_map bind].
    assert (E5 : (match option_map (scale_level c) (ca_min a) with
                  | Some lv => clamp_min_loop lv (seq 0 (mcols samples)) (mscal (c * c) m4) | None => Ok (mscal (c * c) m4) end) =
                 res_map (mscal (c * c)) (match ca_min a with Some lv => clamp_min_loop lv (seq 0 (mcols samples)) m4 | None => Ok m4 end)).
    { destruct (ca_min a); [apply clamp_min_scal; exact Hc|reflexivity]. }
    rewrite E5. destruct (match ca_min a with Some _ => _ | None => _ end) as [m5|]; reflexivity.
Qed.

(** ** sampling *)
Lemma bound_at_affine c v b j : bound_fits b (length v) = true -> (j < length v)%nat ->
  bound_at (affine_bound c v b) j = option_map (fun r => c * r + nth j v 0) (bound_at b j).
Proof.
  assert (K : forall r, (j < length v)%nat -> bound_at (BArr (map (fun s => c * r + s) v)) j = Some (c * r + nth j v 0)).
  { intros r Hj. destruct v as [|a [|b' v]]; cbn [map bound_at]; [cbn in Hj; lia|destruct j; [reflexivity|cbn in Hj; lia]|].
    change (nth_error (map (fun s => c * r + s) (a :: b' :: v)) j = Some (c * r + nth j (a :: b' :: v) 0)).
    rewrite nth_error_map, (nth_error_nth' _ 0) by exact Hj. reflexivity. }
  destruct b as [|r|l]; intros Hf Hj; [reflexivity|apply K; exact Hj|].
  destruct l as [|r [|r2 l]].
  - destruct v; [cbn in Hj; lia|discriminate].
  - apply K; exact Hj.
  - cbn [bound_fits] in Hf. cbn [length] in Hf. apply orb_true_iff in Hf. destruct Hf as [Hf|Hf]; [discriminate|].
    apply Nat.eqb_eq in Hf. set (l' := r :: r2 :: l) in *.
    assert (Hl : length l' = length v) by exact Hf.
    change (affine_bound c v (BArr l')) with (BArr (affine_row c v l')).
    assert (G : forall l0, (2 <= length l0)%nat -> bound_at (BArr l0) j = nth_error l0 j).
    { intros [|? [|? l0]]; cbn [length]; intros; try lia. reflexivity. }
    assert (2 <= length l')%nat by (cbn; lia).
    rewrite !G by (rewrite ?affine_row_length; lia).
    rewrite (nth_error_nth' _ 0) by (rewrite affine_row_length; lia).
    rewrite (nth_error_nth' l' 0) by lia. cbn [option_map]. now rewrite affine_row_nth by lia.
Qed.
Lemma bound_fits_affine c v b : bound_fits b (length v) = true -> bound_fits (affine_bound c v b) (length v) = true.
Proof.
  destruct b as [|r|[|r [|r2 l]]]; intros H; try reflexivity; cbn [affine_bound bound_fits] in *;
    rewrite ?map_length, ?Nat.eqb_refl, ?orb_true_r; try reflexivity.
  - exact H.
  - unfold affine_row. rewrite map2_length. cbn [length] in *. apply orb_true_iff in H. destruct H as [H|H]; [discriminate|].
    apply Nat.eqb_eq in H. rewrite H, Nat.min_id, Nat.eqb_refl. apply orb_true_r.
Qed.
Lemma clip_affine c s lo up x : 0 < c ->
  clip1 (option_map (fun r => c * r + s) lo) (option_map (fun r => c * r + s) up) (c * x + s) = c * clip1 lo up x + s.
Proof.
  intros Hc. unfold clip1. destruct lo as [l|], up as [u|]; cbn [option_map]; try reflexivity;
    unfold Rmax, Rmin; repeat (destruct (Rle_dec _ _); try nra); try reflexivity.
Qed.
Lemma map2_seq_nth {B} (f : nat -> R -> B) (row : list R) (d : B) : forall b,
  map2 f (seq b (length row)) row = map (fun j => f (b + j)%nat (nth j row 0)) (seq 0 (length row)).
Proof.
  induction row as [|x row IH]; intros b; [reflexivity|]. cbn [length seq map2 map nth]. rewrite Nat.add_0_r. f_equal.
  rewrite IH. rewrite <- seq_shift, map_map. apply map_ext. intros j. f_equal. lia.
Qed.
Lemma clip_samples_affine c v m lo up : 0 < c -> mat_wf m -> mcols m = length v ->
  bound_fits lo (length v) = true -> bound_fits up (length v) = true ->
  clip_samples (affine_mat c v m) (affine_bound c v lo) (affine_bound c v up) = res_map (affine_mat c v) (clip_samples m lo up).
Proof.
  intros Hc Hwf Hm Fl Fu. unfold clip_samples. cbn [affine_mat mcols]. rewrite Hm, Fl, Fu, !bound_fits_affine by assumption.
  assert (E : Mat (length v) (map (fun row => map2 (fun j x => clip1 (bound_at (affine_bound c v lo) j) (bound_at (affine_bound c v up) j) x)
                (seq 0 (length v)) row) (map (affine_row c v) (mrows m)))
            = affine_mat c v (Mat (length v) (map (fun row => map2 (fun j x => clip1 (bound_at lo j) (bound_at up j) x)
                (seq 0 (length v)) row) (mrows m)))).
  { unfold affine_mat. cbn [mcols mrows]. f_equal. rewrite !map_map. apply map_ext_in. intros row Hr.
    assert (Hl : length row = length v) by (unfold mat_wf in Hwf; rewrite Forall_forall in Hwf; rewrite Hwf by exact Hr; exact Hm).
    apply (nth_ext _ _ 0 0).
    { rewrite map2_length, seq_length, !affine_row_length; try lia. rewrite map2_length, seq_length. lia. }
    rewrite map2_length, seq_length, affine_row_length by lia. intros j Hj. rewrite Nat.min_id in Hj.
    rewrite affine_row_nth by (rewrite ?map2_length, ?seq_length; lia).
    rewrite !(nth_map2 _ _ _ j 0%nat 0 0) by (rewrite ?seq_length, ?affine_row_length; lia).
    rewrite !seq_nth by lia. cbn [Nat.add]. rewrite !bound_at_affine, affine_row_nth by (assumption || lia).
    now apply clip_affine. }
  assert (N : forall b, (b = BNone /\ affine_bound c v b = BNone) \/ (b <> BNone /\ exists l, affine_bound c v b = BArr l)).
  { intros [|r|[|r [|r2 l]]]; [now left|right..]; split; try discriminate; eexists; reflexivity. }
  destruct (N lo) as [[-> _]|[Nl [l1 El]]], (N up) as [[-> _]|[Nu [l2 Eu]]].
  - reflexivity.
  - rewrite Eu in *. cbn [affine_bound] in *. destruct up; [congruence|..]; cbn [andb res_map]; f_equal; exact E.
  - rewrite El in *. cbn [affine_bound] in *. destruct lo; [congruence|..]; cbn [andb res_map]; f_equal; exact E.
  - rewrite El, Eu in *. destruct lo; [congruence|..]; (destruct up; [congruence|..]); cbn [andb res_map]; f_equal; exact E.
Qed.
