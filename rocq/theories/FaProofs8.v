(** Locally weighted regression. *)
From Coq Require Import String.
From Verif Require Import Base BaseLemmas ParamModel FaModel FaSpec FaProofs FaProofs2 FaProofs3 FaProofs4 FaProofs5 FaProofs6 FaProofs7.
Open Scope list_scope.
Open Scope R_scope.

(** ** shares *)
Lemma gaussians_pos C W x : Forall (fun g => 0 < g) (gaussians C W x).
Proof.
  unfold gaussians. revert W. induction C as [|c C IH]; intros [|w W]; cbn; constructor; [|apply IH]. apply exp_pos.
Qed.
Lemma rsum_pos l : l <> [] -> Forall (fun g => 0 < g) l -> 0 < rsum l.
Proof.
  intros N F. destruct F as [|g l Hg F]; [contradiction|]. cbn.
  assert (0 <= rsum l); [|lra]. apply rsum_nonneg. rewrite Forall_forall in F. intros x Hx. left. auto.
Qed.
Lemma row_of_shares d C W x : Forall (fun r => length r = d) C -> Forall (fun r => length r = d) W ->
  Forall (fun r => Forall (fun s => s <> 0) r) W -> length W = length C -> C <> [] -> length x = d ->
  row_of exp C W true x = shares C W x.
Proof.
  intros HC HW HN LW NE Lx. unfold row_of. rewrite (raw_gaussians d) by assumption. unfold shares.
  pose proof (gaussians_pos C W x) as P.
  assert (Lg : length (gaussians C W x) = length C) by (unfold gaussians; rewrite map2_length; lia).
  destruct (Nat.eqb_spec (length C) 1) as [E1|E1].
  - rewrite E1 in *. destruct (gaussians C W x) as [|g [|? ?]]; try discriminate. cbn. inversion P; subst. f_equal. field. lra.
  - unfold normalize. destruct Req_EM_T as [Z|_]; [|reflexivity].
    assert (0 < rsum (gaussians C W x)); [|lra]. apply rsum_pos; [|assumption]. intros Z'. rewrite Z' in Lg. destruct C; [contradiction|discriminate].
Qed.
Lemma shares_length C W x : length W = length C -> length (shares C W x) = length C.
Proof. intros L. unfold shares, gaussians. rewrite map_length, map2_length. lia. Qed.
Lemma shares_pos C W x : length W = length C -> Forall (fun a => 0 < a) (shares C W x).
Proof.
  intros L. unfold shares. pose proof (gaussians_pos C W x) as P. apply Forall_map, Forall_forall. intros g Hg.
  pose proof P as Q. rewrite Forall_forall in Q. specialize (Q g Hg). apply Rdiv_lt_0_compat; [assumption|]. apply rsum_pos; [|assumption].
  intros Z. rewrite Z in Hg. contradiction.
Qed.
Lemma shares_sum C W x : length W = length C -> C <> [] -> rsum (shares C W x) = 1.
Proof.
  intros L N. unfold shares. rewrite rsum_div. apply Rinv_r. apply Rgt_not_eq. apply rsum_pos; [|apply gaussians_pos].
  intros Z. apply (f_equal (@length _)) in Z. unfold gaussians in Z. rewrite map2_length in Z. destruct C; [contradiction|]. cbn [length] in Z, L. rewrite L, Nat.min_id in Z. discriminate.
Qed.

(** ** convex combinations *)
Lemma dot_bounds lo hi vs ss : length vs = length ss -> Forall (fun v => lo <= v <= hi) vs -> Forall (fun a => 0 <= a) ss ->
  lo * rsum ss <= dot vs ss <= hi * rsum ss.
Proof.
  unfold dot. revert ss. induction vs as [|v vs IH]; intros [|s ss] L Fv Fs; try discriminate; cbn; [lra|].
  inversion Fv as [|? ? Hv Fv']; subst. inversion Fs as [|? ? Hs Fs']; subst. specialize (IH ss (f_equal pred L) Fv' Fs').
  assert (lo * s <= v * s) by (apply Rmult_le_compat_r; lra).
  assert (v * s <= hi * s) by (apply Rmult_le_compat_r; lra). lra.
Qed.
Lemma dot_const c vs ss : length vs = length ss -> Forall (fun v => v = c) vs -> dot vs ss = c * rsum ss.
Proof.
  unfold dot. revert ss. induction vs as [|v vs IH]; intros [|s ss] L Fv; try discriminate; cbn; [lra|].
  inversion Fv as [|? ? Hv Fv']; subst. rewrite IH by (try congruence; now injection L). ring.
Qed.

Definition lwr_ps (d : nat) (C W : list (list R)) (lines : list (list R * R)) : list (string * pval) :=
  [("centers"%string, PArr (mat_arr (Mat d C))); ("widths"%string, PArr (mat_arr (Mat d W)));
   ("offsets"%string, PArr (Arr [length C; 1%nat] (map snd lines)));
   ("slopes"%string, PArr (Arr [length C; d] (List.concat (map fst lines))))].

Lemma nrows_mtab n m f : nrows (mtab n m f) = n.
Proof. unfold nrows, mtab. cbn. now rewrite map_length, seq_length. Qed.

Section Predict.
Variables (d : nat) (C W : list (list R)).
Hypothesis B : kset d C W.

(** predictions for every np.exp *)
Lemma lwr_predict_any ex lines X : length lines = length C -> Forall (fun l => length (fst l) = d) lines ->
  Forall (fun r => length r = d) X ->
  lwr_predict ex (lwr_ps d C W lines) (Mat d X) =
  Ok (map (fun x => dot (line_values lines x) (row_of ex C W true x)) X).
Proof.
  intros Ll HL HX. unfold lwr_predict, get_lines, param_arr.
  cbn [lookup lwr_ps String.eqb Ascii.eqb Bool.eqb bind ashape adata].
  rewrite map_length, Ll. rewrite <- (map_length fst lines) in Ll.
  assert (Ch : chunks d (length C) (List.concat (map fst lines)) = map fst lines).
  { rewrite <- Ll. apply chunks_concat. apply Forall_map. assumption. }
  rewrite Ch.
  cbn [bind]. unfold nrows at 1. cbn [mrows mcols]. rewrite Ll, Nat.ltb_irrefl, Nat.eqb_refl. cbn [negb andb bind].
  rewrite (fa_activations_ok ex d C W B) by (try reflexivity; assumption). cbn [bind].
  unfold mtimes. cbn [mtab mcols]. rewrite Nat.eqb_refl. cbn [bind]. f_equal.
  unfold mtab at 1. cbn [mrows]. rewrite map_map. rewrite nrows_mtab. unfold nrows at 1. cbn [mrows].
  apply (nth_ext _ _ 0 0); rewrite !map_length, seq_length; [reflexivity|]. intros i Hi.
  rewrite nth_map_seq by assumption.
  rewrite (nth_map_lt (fun x => dot (line_values lines x) (row_of ex C W true x)) X i [] 0) by assumption.
  rewrite (dot_sumn (length C)).
  2: { unfold line_values. rewrite map_length. rewrite map_length in Ll. assumption. }
  2: { apply (row_length ex d C W B). }
  rewrite rsum_seq. apply sumn_ext. intros j Hj. f_equal.
  - rewrite mget_mtab by assumption. unfold line_values.
    rewrite map_length in Ll.
    rewrite (nth_map_lt (fun l => affine (fst l) (snd l) (nth i X [])) lines j ([],0) 0) by lia.
    unfold affine, dot. f_equal.
    + f_equal. f_equal. cbn [mrows]. now rewrite (nth_map_lt fst lines j ([],0) []) by lia.
    + now rewrite (nth_map_lt snd lines j ([],0) 0) by lia.
  - unfold mget. cbn [mrows]. now rewrite (nth_map_lt (row_of ex C W true) X i [] []) by assumption.
Qed.
Lemma lwr_predict_ok lines X : length lines = length C -> Forall (fun l => length (fst l) = d) lines ->
  Forall (fun r => length r = d) X ->
  lwr_predict exp (lwr_ps d C W lines) (Mat d X) = Ok (map (lwr_sum C W lines) X).
Proof.
  intros Ll HL HX. rewrite (lwr_predict_any exp) by assumption. f_equal. apply map_ext_in. intros x Hx. unfold lwr_sum. f_equal.
  apply (row_of_shares d); try apply B. rewrite Forall_forall in HX. now apply HX.
Qed.
End Predict.

(** ** training *)
Section Lwr.
Variables (d : nat) (xs : list (list R)) (ns : list nat) (h lam : R) (ys : list R) (t : input).
Hypothesis HS : samples d xs.
Hypothesis HD : (0 < d)%nat.
Hypothesis HP : per_dim d ns.
Hypothesis HSp : spread d xs ns.
Hypothesis Hh : 0 < h < 1.
Hypothesis Hys : length ys = length xs.
Hypothesis Ht : targets_are t ys.
Hypothesis Ht1 : t = In1 ys \/ d = 1%nat.
Variables C W : list (list R).
Hypothesis B : basis d xs ns h C W.

Definition share_weights (k : nat) : list R := map (fun x => nth k (shares C W x) 0) xs.

Lemma sw_length k : length (share_weights k) = length xs.
Proof. apply map_length. Qed.
Lemma sw_nth k i : (i < length xs)%nat -> nth i (share_weights k) 0 = nth k (shares C W (nth i xs [])) 0.
Proof. intros Hi. unfold share_weights. now rewrite (nth_map_lt (fun x => nth k (shares C W x) 0) xs i [] 0). Qed.
Lemma sw_pos k i : (k < length C)%nat -> (i < length xs)%nat -> 0 < nth i (share_weights k) 0.
Proof.
  intros Hk Hi. rewrite sw_nth by assumption. pose proof (shares_pos C W (nth i xs []) (bs_nW _ _ _ _ _ _ B)) as F.
  rewrite Forall_forall in F. apply F. apply nth_In. rewrite shares_length; [assumption|apply B].
Qed.
Lemma xs_row i : (i < length xs)%nat -> length (nth i xs []) = d.
Proof. intros Hi. destruct HS as [_ F]. rewrite Forall_forall in F. apply F. now apply nth_In. Qed.

Lemma lwr_train_eq : lwr_train exp ns h lam t (Mat d xs) =
  let* lines := mapM (fun k => let* wls := wls_train true 0 (Some (share_weights k)) t (Mat d xs) in
     let* slope := param_arr wls "slope" in
     let* slope := slope_row d slope in
     let* offset := param_arr wls "offset" in
     let* offset := the_number offset in Ok (slope, offset)) (seq 0 (length C)) in
  Ok (lwr_ps d C W lines).
Proof.
  unfold lwr_train. rewrite (bs_eq _ _ _ _ _ _ B). cbn [bind mcols].
  rewrite (fa_activations_ok exp d C W (basis_kset _ _ _ _ _ _ B)) by (try reflexivity; apply HS). cbn [bind].
  rewrite <- (bs_n _ _ _ _ _ _ B). unfold lwr_ps. f_equal. apply mapM_ext. intros k Hk. apply in_seq in Hk.
  unfold mcolumn. cbn [mcols]. destruct (Nat.ltb_spec k (length C)); [|lia]. cbn [bind]. f_equal. f_equal. f_equal.
  unfold nrows. cbn [mrows]. rewrite map_length.
  apply (nth_ext _ _ 0 0); [now rewrite map_length, seq_length, sw_length|]. rewrite map_length, seq_length. intros i Hi.
  rewrite nth_map_seq, sw_nth by assumption. unfold mget. cbn [mrows].
  rewrite (nth_map_lt (row_of exp C W true) xs i [] []) by assumption. f_equal. apply (row_of_shares d); try apply B.
  now apply xs_row.
Qed.

Lemma xwf : mat_wf (Mat d xs).
Proof. apply HS. Qed.
Lemma xpos : (0 < nrows (Mat d xs))%nat.
Proof. cbn. destruct HS as [NE _]. unfold nrows. cbn. destruct xs; [contradiction|cbn; lia]. Qed.
Lemma fit_slope s o : length s = d ->
  (let* slope := param_arr (fit_params true t (coeff_list true s o)) "slope" in
   let* slope := slope_row d slope in
   let* offset := param_arr (fit_params true t (coeff_list true s o)) "offset" in
   let* offset := the_number offset in Ok (slope, offset)) = Ok (s, o).
Proof.
  intros Ls. unfold fit_params, coeff_list, param_arr. cbn [lookup String.eqb Ascii.eqb Bool.eqb bind].
  rewrite removelast_last, last_last. unfold slope_row, the_number, beta_arr.
  destruct Ht as [-> | E]; cbn [ashape adata].
  - unfold vec_arr. cbn [ashape adata]. now rewrite Ls, Nat.eqb_refl.
  - destruct Ht1 as [E'|E1]; [congruence|]. subst t. cbn. subst d.
    destruct s as [|s0 [|? ?]]; try discriminate. reflexivity.
Qed.
Lemma line_fit k : (k < length C)%nat ->
  (forall l, (let* wls := wls_train true 0 (Some (share_weights k)) t (Mat d xs) in
     let* slope := param_arr wls "slope" in
     let* slope := slope_row d slope in
     let* offset := param_arr wls "offset" in
     let* offset := the_number offset in Ok (slope, offset)) = Ok l ->
     best true d xs ys (share_weights k) 0 (fst l) (snd l)) /\
  (is_ok (let* wls := wls_train true 0 (Some (share_weights k)) t (Mat d xs) in
     let* slope := param_arr wls "slope" in
     let* slope := slope_row d slope in
     let* offset := param_arr wls "offset" in
     let* offset := the_number offset in Ok (slope, offset)) <-> determined true d xs (ones (length xs))) /\
  (forall e, (let* wls := wls_train true 0 (Some (share_weights k)) t (Mat d xs) in
     let* slope := param_arr wls "slope" in
     let* slope := slope_row d slope in
     let* offset := param_arr wls "offset" in
     let* offset := the_number offset in Ok (slope, offset)) = Err e -> e = LinAlgError).
Proof.
  intros Hk.
  assert (Pw : forall i, (i < nrows (Mat d xs))%nat -> 0 <= weight_fn (Some (share_weights k)) i).
  { intros i Hi. left. cbn. apply sw_pos; assumption. }
  assert (Wf : weights_fit (Some (share_weights k)) (nrows (Mat d xs))) by (cbn; apply sw_length).
  assert (Ly : length ys = nrows (Mat d xs)) by exact Hys.
  pose proof (fit_best true 0 (Mat d xs) d xwf eq_refl (Some (share_weights k)) ys Ly Wf xpos (Rle_refl 0) Pw t) as Best.
  destruct (fit_ok true 0 (Mat d xs) d xwf eq_refl (Some (share_weights k)) ys Ly Wf xpos (Rle_refl 0) Pw t Ht) as [F1 F2].
  destruct (wls_train true 0 (Some (share_weights k)) t (Mat d xs)) as [ps|e0] eqn:Ew; cbn [bind].
  - destruct (Best ps Ht eq_refl) as (s & o & Bs & ->). rewrite fit_slope by apply Bs. cbn [mrows weights_of] in Bs. split; [|split].
    + intros l E. assert (l = (s, o)) by congruence. subst l. exact Bs.
    + split; [|intros _; eexists; reflexivity]. intros _.
      destruct F1 as [F1 _]. destruct (F1 ltac:(eexists; reflexivity)) as [L|Det]; [lra|]. cbn [mrows weights_of] in Det.
      intros s' o' Ls' Ho Z. apply Det; try assumption. intros i Hi _. apply Z; [assumption|]. rewrite ones_nth by assumption. lra.
    + discriminate.
  - split; [discriminate|]. split.
    + split; [intros [? E]; discriminate|]. intros Det. exfalso. destruct F1 as [_ F1].
      destruct F1 as [? E]; [|discriminate]. right. cbn [mrows weights_of]. intros s o Ls Ho Z. apply Det; try assumption.
      intros i Hi _. apply Z; [assumption|]. now apply sw_pos.
    + intros e E. apply F2. congruence.
Qed.

Lemma lwr_fit ps : lwr_train exp ns h lam t (Mat d xs) = Ok ps ->
  exists lines, length lines = length C /\ ps = lwr_ps d C W lines /\
    forall k, (k < length C)%nat ->
      best true d xs ys (share_weights k) 0 (fst (nth k lines ([], 0))) (snd (nth k lines ([], 0))).
Proof.
  rewrite lwr_train_eq. intros E.
  destruct (mapM _ _) as [lines|] eqn:Em in E; cbn [bind] in E; [|discriminate].
  exists lines. pose proof (mapM_ok_length _ _ _ Em) as Ll. rewrite seq_length in Ll. split; [assumption|]. split; [congruence|].
  intros k Hk. apply mapM_ok_iff in Em. pose proof (Forall2_nth _ _ _ 0%nat ([], 0) Em k) as N.
  rewrite Ll in N. specialize (N Hk). rewrite seq_nth in N by assumption. cbn [Nat.add] in N.
  exact (proj1 (line_fit k Hk) _ N).
Qed.
Lemma lwr_train_ok :
  (is_ok (lwr_train exp ns h lam t (Mat d xs)) <-> determined true d xs (ones (length xs))) /\
  (forall e, lwr_train exp ns h lam t (Mat d xs) = Err e -> e = LinAlgError).
Proof.
  rewrite lwr_train_eq. split.
  - split.
    + intros [ps E]. destruct (mapM _ _) as [lines|] eqn:Em in E; cbn [bind] in E; [|discriminate].
      pose proof (bs_pos _ _ _ _ _ _ B) as P. apply mapM_ok_iff in Em. pose proof (Forall2_nth _ _ _ 0%nat ([], 0) Em 0%nat) as N.
      pose proof (mapM_ok_length _ _ _ (proj2 (mapM_ok_iff _ _ _) Em)) as Ll. rewrite seq_length in Ll.
      rewrite Ll in N. specialize (N P). rewrite seq_nth in N by assumption. cbn [Nat.add] in N.
      apply (proj1 (proj2 (line_fit 0%nat P))). eexists; exact N.
    + intros Det.
      set (f := fun k => _). assert (A : forall l, Forall (fun k => (k < length C)%nat) l -> exists ys, mapM f l = Ok ys).
      { induction 1 as [|k l Hk F [r IH]]; [exists []; reflexivity|].
        destruct (proj2 (proj1 (proj2 (line_fit k Hk))) Det) as [y Ey]. exists (y :: r). cbn. unfold f at 1. rewrite Ey. cbn. rewrite IH. reflexivity. }
      destruct (A (seq 0 (length C))) as [r Er].
      { apply Forall_forall. intros k Hk. apply in_seq in Hk. lia. }
      rewrite Er. eexists; reflexivity.
  - intros e E. set (f := fun k => _) in E.
    assert (A : forall l e, Forall (fun k => (k < length C)%nat) l -> mapM f l = Err e -> e = LinAlgError).
    { intros l e0 F. induction F as [|k l Hk F IH]; cbn; [discriminate|]. destruct (f k) as [y|e1] eqn:Ef; cbn.
      - destruct (mapM f l); [discriminate|]. intros Q. apply IH. cbn in Q. congruence.
      - intros Q. assert (e1 = e0) by congruence. subst e1. exact (proj2 (proj2 (line_fit k Hk)) _ Ef). }
    destruct (mapM f (seq 0 (length C))) as [r|e0] eqn:Em; cbn [bind] in E; [discriminate|].
    assert (e0 = e) by congruence. subst e0. apply (A (seq 0 (length C)) e); [|exact Em].
    apply Forall_forall; intros k Hk; apply in_seq in Hk; lia.
Qed.
End Lwr.
