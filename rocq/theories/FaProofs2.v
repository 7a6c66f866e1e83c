(** Weighted least squares. *)
From Coq Require Import String.
From Verif Require Import Base BaseLemmas ParamModel FaModel FaSpec FaProofs.
Open Scope list_scope.
Open Scope R_scope.

(** ** functional least squares *)
Section Quadratic.
Variables (n p : nat) (x : nat -> nat -> R) (w y : nat -> R) (lam : R).
Definition lin (b : nat -> R) (l : nat) : R := sumn p (fun j => x l j * b j).
Definition jfun (b : nat -> R) : R :=
  sumn n (fun l => w l * (lin b l - y l)^2) + lam * sumn p (fun j => (b j)^2).
Definition qfun (d : nat -> R) : R := sumn n (fun l => w l * (lin d l)^2) + lam * sumn p (fun j => (d j)^2).
Definition normal (i j : nat) : R := sumn n (fun l => x l i * w l * x l j) + lam * delta i j.
Definition rhs (i : nat) : R := sumn n (fun l => x l i * w l * y l).

Lemma lin_minus b c l : lin (fun j => b j - c j) l = lin b l - lin c l.
Proof. unfold lin. rewrite <- sumn_minus. apply sumn_ext. intros; ring. Qed.

Lemma normal_mul b i : (i < p)%nat ->
  sumn p (fun j => normal i j * b j) = sumn n (fun l => x l i * w l * lin b l) + lam * b i.
Proof.
  intros Hi. unfold normal.
  rewrite (sumn_ext _ _ (fun j => sumn n (fun l => x l i * w l * x l j * b j) + delta i j * (lam * b j))).
  2: { intros j Hj. rewrite Rmult_plus_distr_r. f_equal; [now rewrite <- sumn_scal_r|ring]. }
  rewrite sumn_plus, (sumn_delta_l p i (fun j => lam * b j)) by assumption. f_equal.
  rewrite sumn_swap. apply sumn_ext. intros l Hl. unfold lin. rewrite <- sumn_scal.
  apply sumn_ext. intros; ring.
Qed.

Lemma jfun_expand beta b :
  (forall i, (i < p)%nat -> sumn p (fun j => normal i j * beta j) = rhs i) ->
  jfun b = jfun beta + qfun (fun j => b j - beta j).
Proof.
  intros N. set (d := fun j => b j - beta j).
  assert (Z : sumn n (fun l => w l * lin d l * (lin beta l - y l)) + lam * sumn p (fun j => d j * beta j) = 0).
  { transitivity (sumn p (fun i => d i * (sumn p (fun j => normal i j * beta j) - rhs i))).
    - symmetry.
      transitivity (sumn p (fun i => sumn n (fun l => d i * (x l i * w l * (lin beta l - y l))) + lam * (d i * beta i))).
      + apply sumn_ext. intros i Hi. rewrite normal_mul by assumption. unfold rhs. rewrite sumn_scal.
        rewrite (sumn_ext n (fun l => x l i * w l * (lin beta l - y l)) (fun l => x l i * w l * lin beta l - x l i * w l * y l))
          by (intros; ring).
        rewrite sumn_minus. ring.
      + rewrite sumn_plus, sumn_scal. f_equal. rewrite sumn_swap. apply sumn_ext. intros l Hl.
        unfold lin at 2. rewrite <- sumn_scal, <- sumn_scal_r. apply sumn_ext. intros; ring.
    - apply sumn_zero. intros i Hi. rewrite N by assumption. ring. }
  unfold jfun, qfun.
  assert (E1 : sumn n (fun l => w l * (lin b l - y l)^2) =
    sumn n (fun l => w l * (lin beta l - y l)^2) + sumn n (fun l => w l * (lin d l)^2)
    + 2 * sumn n (fun l => w l * lin d l * (lin beta l - y l))).
  { rewrite <- sumn_scal, <- !sumn_plus. apply sumn_ext. intros l Hl. unfold d. rewrite lin_minus. ring. }
  assert (E2 : sumn p (fun j => (b j)^2) =
    sumn p (fun j => (beta j)^2) + sumn p (fun j => (d j)^2) + 2 * sumn p (fun j => d j * beta j)).
  { rewrite <- sumn_scal, <- !sumn_plus. apply sumn_ext. intros j Hj. unfold d. ring. }
  rewrite E1, E2. nra.
Qed.

Hypothesis Hw : forall l, (l < n)%nat -> 0 <= w l.
Hypothesis Hlam : 0 <= lam.
Lemma qfun_nonneg d : 0 <= qfun d.
Proof.
  unfold qfun. apply Rplus_le_le_0_compat.
  - apply sumn_nonneg. intros l Hl. apply Rmult_le_pos; [auto|apply pow2_ge_0].
  - apply Rmult_le_pos; [assumption|]. apply sumn_nonneg. intros; apply pow2_ge_0.
Qed.
Lemma sumn_eq0 m f : (forall i, (i < m)%nat -> 0 <= f i) -> sumn m f = 0 -> forall i, (i < m)%nat -> f i = 0.
Proof.
  induction m as [|m IH]; cbn [sumn]; intros P E i Hi; [lia|].
  assert (0 <= sumn m f) by (apply sumn_nonneg; auto).
  pose proof (P m (Nat.lt_succ_diag_r m)).
  destruct (Nat.eq_dec i m) as [->|]; [lra|]. apply IH; [auto|lra|lia].
Qed.
(** the quadratic form vanishes exactly on the kernel of the normal matrix *)
Lemma qfun_zero d : qfun d = 0 <->
  (forall l, (l < n)%nat -> w l * lin d l = 0) /\ (forall j, (j < p)%nat -> lam * d j = 0).
Proof.
  unfold qfun. split.
  - intros E.
    assert (A : 0 <= sumn n (fun l => w l * (lin d l)^2)).
    { apply sumn_nonneg. intros l Hl. apply Rmult_le_pos; [auto|apply pow2_ge_0]. }
    assert (B : 0 <= lam * sumn p (fun j => (d j)^2)).
    { apply Rmult_le_pos; [assumption|]. apply sumn_nonneg. intros; apply pow2_ge_0. }
    split.
    + intros l Hl.
      assert (H : w l * (lin d l)^2 = 0).
      { apply (sumn_eq0 n (fun l => w l * (lin d l)^2)); [|lra|assumption].
        intros k Hk. apply Rmult_le_pos; [auto|apply pow2_ge_0]. }
      cbn [pow] in H. rewrite Rmult_1_r in H.
      destruct (Req_dec (w l) 0) as [->|]; [ring|].
      apply Rmult_integral in H. destruct H; [contradiction|]. apply Rmult_integral in H.
      destruct H as [-> | ->]; ring.
    + intros j Hj. destruct (Req_dec lam 0) as [->|]; [ring|].
      assert (H0 : sumn p (fun j => (d j)^2) = 0).
      { assert (0 <= sumn p (fun j => (d j)^2)) by (apply sumn_nonneg; intros; apply pow2_ge_0). nra. }
      pose proof (sumn_eq0 p (fun j => (d j)^2) (fun i _ => pow2_ge_0 _) H0 j Hj) as H1. cbn in H1.
      assert (d j = 0) by nra. rewrite H2. ring.
  - intros [A B]. rewrite (sumn_zero n); [|intros l Hl; specialize (A l Hl); cbn [pow]; rewrite <- Rmult_assoc, A; ring].
    destruct (Req_dec lam 0) as [->|]; [ring|].
    rewrite (sumn_zero p); [ring|]. intros j Hj. specialize (B j Hj).
    assert (d j = 0) by (apply Rmult_integral in B; tauto). rewrite H0. ring.
Qed.
Lemma normal_quad d : sumn p (fun i => d i * sumn p (fun j => normal i j * d j)) = qfun d.
Proof.
  rewrite (sumn_ext _ _ (fun i => sumn n (fun l => d i * (x l i * w l * lin d l)) + lam * (d i)^2)).
  2: { intros i Hi. rewrite normal_mul by assumption. rewrite sumn_scal. ring. }
  rewrite sumn_plus, sumn_scal. unfold qfun. f_equal. rewrite sumn_swap. apply sumn_ext. intros l Hl.
  unfold lin at 2. rewrite (sumn_ext _ _ (fun i => w l * lin d l * (x l i * d i))) by (intros; ring).
  rewrite sumn_scal. fold (lin d l). ring.
Qed.
Lemma normal_kernel d :
  (forall i, (i < p)%nat -> sumn p (fun j => normal i j * d j) = 0) <->
  (forall l, (l < n)%nat -> w l * lin d l = 0) /\ (forall j, (j < p)%nat -> lam * d j = 0).
Proof.
  split.
  - intros Z. apply qfun_zero. rewrite <- normal_quad. apply sumn_zero. intros i Hi. rewrite Z by assumption. ring.
  - intros [A B] i Hi. rewrite normal_mul, B by assumption. rewrite sumn_zero; [ring|].
    intros l Hl. rewrite Rmult_assoc, A by assumption. ring.
Qed.
End Quadratic.

(** ** the model of FunctionApproximatorWLS *)
Lemma concat_length_wf m : mat_wf m -> length (List.concat (mrows m)) = (nrows m * mcols m)%nat.
Proof.
  unfold mat_wf, nrows. destruct m as [c rows]. cbn. induction 1; [reflexivity|].
  cbn. rewrite app_length, H, IHForall. reflexivity.
Qed.
Lemma chunks_concat c rows : Forall (fun r => length r = c) rows -> chunks c (length rows) (List.concat rows) = rows.
Proof.
  induction 1 as [|r rows Hr _ IH]; [reflexivity|]. cbn [length chunks List.concat].
  rewrite firstn_app, Hr, Nat.sub_diag, firstn_O, app_nil_r, <- Hr, firstn_all. f_equal.
  rewrite skipn_app, Nat.sub_diag, skipn_O, skipn_all. cbn. now rewrite Hr.
Qed.
Lemma chunks_length c n l : length (chunks c n l) = n.
Proof. revert l; induction n; intros l; cbn; [reflexivity|]. now rewrite IHn. Qed.
Lemma reshape_wf m : mat_wf m -> (0 < nrows m)%nat -> reshape (nrows m) (List.concat (mrows m)) = Ok m.
Proof.
  intros W H. unfold reshape. destruct (nrows m) as [|k] eqn:E; [lia|]. rewrite <- E.
  rewrite concat_length_wf by assumption. rewrite (Nat.mul_comm (nrows m)), Nat.mod_mul by lia.
  cbn [Nat.eqb]. rewrite Nat.div_mul by lia. unfold nrows at 1. rewrite chunks_concat by exact W.
  now destruct m.
Qed.

Definition weight_fn (w : option (list R)) (l : nat) : R := match w with None => 1 | Some ws => nth l ws 0 end.
Definition weights_fit (w : option (list R)) (n : nat) : Prop := match w with None => True | Some ws => length ws = n end.
Definition design (use_offset : bool) (m : mat) : mat := if use_offset then with_ones m else m.

Lemma design_nrows u m : nrows (design u m) = nrows m.
Proof. destruct u; [|reflexivity]. unfold design, nrows, with_ones. cbn. now rewrite map_length. Qed.
Lemma design_wf u m : mat_wf m -> mat_wf (design u m).
Proof.
  destruct u; [|auto]. unfold mat_wf, design, with_ones. cbn. intros W. apply Forall_map.
  apply Forall_forall. intros r Hr. rewrite Forall_forall in W. rewrite app_length, W by assumption. cbn. lia.
Qed.

Lemma mget_mdiag l i j : (i < length l)%nat -> (j < length l)%nat -> mget (mdiag l) i j = delta i j * nth i l 0.
Proof. intros Hi Hj. unfold mdiag, delta. rewrite mget_mtab by assumption. destruct (Nat.eqb i j); ring. Qed.

Definition wmat (w : option (list R)) (n : nat) : mat := match w with None => meye n | Some ws => mdiag ws end.
Lemma wmat_dims w n : weights_fit w n -> nrows (wmat w n) = n /\ mcols (wmat w n) = n.
Proof. destruct w; cbn; [intros <-|intros _]; (split; [apply mtab_nrows|reflexivity]). Qed.
Lemma mget_wmat w n i j : weights_fit w n -> (i < n)%nat -> (j < n)%nat -> mget (wmat w n) i j = delta i j * weight_fn w i.
Proof.
  destruct w as [ws|]; cbn [weights_fit wmat weight_fn]; [intros <-|intros _]; intros Hi Hj; [now apply mget_mdiag|].
  rewrite mget_meye by assumption. ring.
Qed.

Lemma mmul_ok a b : mcols a = nrows b ->
  mmul a b = Ok (mtab (nrows a) (mcols b) (fun i j => sumn (mcols a) (fun k => mget a i k * mget b k j))).
Proof. intros E. unfold mmul. now rewrite E, Nat.eqb_refl. Qed.

Lemma concat_col p f : List.concat (mrows (mtab p 1 f)) = map (fun i => f i 0%nat) (seq 0 p).
Proof.
  unfold mtab. cbn [mrows seq map]. generalize (seq 0 p). induction l; cbn; [reflexivity|]. now rewrite IHl.
Qed.

(** the inverse used for the fit and the fitted coefficients *)
Definition fit_params (use_offset : bool) (t : input) (beta : list R) : list (string * pval) :=
  if use_offset
  then [("slope"%string, PArr (beta_arr t (removelast beta)));
        ("offset"%string, PArr (Arr (match t with In1 _ => [] | In2 _ => [1%nat] end) [last beta 0]))]
  else [("slope"%string, PArr (beta_arr t beta))].

Section Fit.
Variables (u : bool) (lam : R) (w : option (list R)) (t : input) (m : mat).
Hypothesis Hwf : mat_wf m.
Hypothesis Hn : isize t = nrows m.
Hypothesis Hpos : (0 < nrows m)%nat.
Hypothesis Hw : weights_fit w (nrows m).
Hypothesis Htn : nrows (targets_column t) = nrows m.
Hypothesis Htc : mcols (targets_column t) = 1%nat.

Let n := nrows m.
Let X := design u m.
Let p := mcols X.
Let x := mget X.
Let wf := weight_fn w.
Let y := fun l => mget (targets_column t) l 0.
Definition normal_mat : mat := mtab p p (normal n x wf lam).

Lemma wls_normal :
  (let* XtW := mmul (mtrans X) (wmat w n) in
   let* XtWX := mmul XtW X in
   Ok (madd XtWX (mscal lam (meye (mcols X))))) = Ok normal_mat.
Proof.
  destruct (wmat_dims w n Hw) as [Wr Wc].
  assert (Xr : nrows X = n) by apply design_nrows.
  rewrite mmul_ok by (cbn; now rewrite Wr). cbn [bind]. rewrite mmul_ok by (cbn; now rewrite Wc, Xr).
  cbn [bind]. f_equal. apply mat_ext.
  - apply mtab_wf.
  - apply mtab_wf.
  - reflexivity.
  - unfold madd, normal_mat, mtrans. now rewrite !mtab_nrows.
  - unfold madd. rewrite mtab_nrows. unfold mtrans. rewrite !mtab_nrows. cbn [mcols mtab]. fold p.
    intros i j Hi Hj. rewrite mget_mtab by assumption. rewrite mget_mtab by assumption. unfold mscal.
    rewrite (mget_mtab (nrows (meye p))) by (unfold meye; rewrite ?mtab_nrows; assumption). rewrite mget_meye by assumption.
    unfold normal_mat. rewrite mget_mtab by assumption. unfold normal.
    rewrite Wc. f_equal.
    + apply sumn_ext. intros l Hl. rewrite mget_mtab by assumption. f_equal.
      rewrite Xr.
      rewrite (sumn_ext _ _ (fun k => (x k i * wf k) * delta k l)).
      * now rewrite (sumn_delta_r n l (fun k => x k i * wf k)).
      * intros k Hk. rewrite mget_mtab by (rewrite ?Xr; assumption). rewrite mget_wmat by assumption. unfold x, wf. ring.
Qed.

Definition coeff (i : mat) (k : nat) : R := sumn p (fun j => mget i k j * rhs n x wf y j).

Lemma wls_beta i : nrows i = p -> mcols i = p ->
  (let* iXt := mmul i (mtrans X) in
   let* iXtW := mmul iXt (wmat w n) in
   mmul iXtW (targets_column t)) = Ok (mtab p 1 (fun k _ => coeff i k)).
Proof.
  intros Ir Ic. destruct (wmat_dims w n Hw) as [Wr Wc].
  assert (Xr : nrows X = n) by apply design_nrows.
  rewrite mmul_ok by (unfold mtrans; now rewrite mtab_nrows). cbn [bind].
  rewrite mmul_ok by (cbn; now rewrite Wr, Xr). cbn [bind].
  rewrite mmul_ok by (cbn; now rewrite Wc, Htn). f_equal. rewrite Htc.
  apply mat_ext.
  - apply mtab_wf.
  - apply mtab_wf.
  - reflexivity.
  - rewrite !mtab_nrows. assumption.
  - rewrite !mtab_nrows. rewrite Ir. intros k j Hk Hj. cbn [mcols mtab] in Hj.
    rewrite !mget_mtab by assumption. cbn [mcols mtab]. rewrite Wc.
    replace j with 0%nat by lia. unfold coeff, rhs.
    rewrite (sumn_ext p _ (fun j => sumn n (fun l => mget i k j * (x l j * wf l * y l)))).
    2: { intros; now rewrite sumn_scal. }
    rewrite sumn_swap. apply sumn_ext. intros l Hl. rewrite mget_mtab by (rewrite ?Xr; assumption).
    change (mcols (mtrans X)) with (nrows X). rewrite Xr.
    match goal with |- sumn ?a ?f * _ = _ => rewrite (sumn_ext a f (fun q => sumn p (fun j => mget i k j * x q j) * wf q * delta q l)) end.
    + rewrite (sumn_delta_r n l (fun q => sumn p (fun j => mget i k j * x q j) * wf q)) by assumption.
      fold (y l). rewrite Rmult_assoc, <- sumn_scal_r. apply sumn_ext. intros; ring.
    + intros q Hq. rewrite mget_mtab by (rewrite ?Xr; assumption). rewrite mget_wmat by assumption.
      rewrite Ic. rewrite (sumn_ext p _ (fun j => mget i k j * x q j)).
      2: { intros j' Hj'. unfold mtrans. rewrite mget_mtab by (rewrite ?Xr; assumption). reflexivity. }
      unfold wf. ring.
Qed.

(** the effect of training *)
Lemma wls_train_eq :
  wls_train u lam w t m =
  let* i := inv normal_mat in Ok (fit_params u t (map (coeff i) (seq 0 p))).
Proof.
  unfold wls_train. rewrite Hn, reshape_wf by assumption. cbn [bind]. fold (design u m). fold X. fold n.
  fold (wmat w n). pose proof wls_normal as N.
  destruct (mmul (mtrans X) (wmat w n)) as [XtW|]; cbn [bind] in N |- *; [|discriminate].
  destruct (mmul XtW X) as [XtWX|]; cbn [bind] in N |- *; [|discriminate].
  assert (N' : madd XtWX (mscal lam (meye (mcols X))) = normal_mat) by congruence. rewrite N'.
  destruct (inv normal_mat) as [i|] eqn:I; cbn [bind]; [|reflexivity].
  destruct (inv_ok _ _ I) as (_ & Ir & Ic & _). unfold normal_mat in Ir, Ic. rewrite mtab_nrows in Ir, Ic.
  pose proof (wls_beta i Ir Ic) as B.
  destruct (mmul i (mtrans X)) as [iXt|]; cbn [bind] in B |- *; [|discriminate].
  destruct (mmul iXt (wmat w n)) as [iXtW|]; cbn [bind] in B |- *; [|discriminate].
  rewrite B. cbn [bind]. rewrite concat_col. reflexivity.
Qed.

Lemma coeff_normal i : inv normal_mat = Ok i ->
  forall k, (k < p)%nat -> sumn p (fun j => normal n x wf lam k j * coeff i j) = rhs n x wf y k.
Proof.
  intros I k Hk. destruct (inv_ok _ _ I) as (_ & Ir & Ic & _ & V). unfold normal_mat in V. rewrite mtab_nrows in V.
  unfold coeff.
  rewrite (sumn_ext _ _ (fun j => sumn p (fun q => normal n x wf lam k j * mget i j q * rhs n x wf y q))).
  2: { intros j Hj. rewrite <- sumn_scal. apply sumn_ext. intros; ring. }
  rewrite sumn_swap.
  rewrite (sumn_ext _ _ (fun q => delta k q * rhs n x wf y q)).
  - now rewrite sumn_delta_l.
  - intros q Hq. rewrite sumn_scal_r. f_equal. destruct (V k q Hk Hq) as [V1 _]. rewrite <- V1.
    apply sumn_ext. intros j Hj. now rewrite mget_mtab.
Qed.

(** ** the fitted coefficients minimise *)
Hypothesis Hwpos : forall l, (l < n)%nat -> 0 <= wf l.
Hypothesis Hlam : 0 <= lam.
Lemma coeff_minimal i b : inv normal_mat = Ok i -> jfun n p x wf y lam (coeff i) <= jfun n p x wf y lam b.
Proof.
  intros I. rewrite (jfun_expand n p x wf y lam (coeff i) b (coeff_normal i I)).
  pose proof (qfun_nonneg n p x wf lam Hwpos Hlam (fun j => b j - coeff i j)). lra.
Qed.
Lemma coeff_unique i b : inv normal_mat = Ok i -> jfun n p x wf y lam b <= jfun n p x wf y lam (coeff i) ->
  forall j, (j < p)%nat -> b j = coeff i j.
Proof.
  intros I L j Hj. rewrite (jfun_expand n p x wf y lam (coeff i) b (coeff_normal i I)) in L.
  pose proof (qfun_nonneg n p x wf lam Hwpos Hlam (fun j => b j - coeff i j)) as Q.
  assert (Z : qfun n p x wf lam (fun j => b j - coeff i j) = 0) by lra.
  apply (qfun_zero n p x wf y lam Hwpos Hlam) in Z.
  pose proof (proj2 (normal_kernel n p x wf y lam Hwpos Hlam (fun j => b j - coeff i j)) Z) as Z2. clear Z.
  destruct (inv_ok _ _ I) as (_ & Ir & Ic & _ & V). unfold normal_mat in V. rewrite mtab_nrows in V.
  assert (b j - coeff i j = 0); [|lra].
  apply (inverse_kernel p (mget (mtab p p (normal n x wf lam))) (mget i) (fun j => b j - coeff i j) V); [|assumption].
  intros k Hk. rewrite <- (Z2 k Hk). apply sumn_ext. intros q Hq. now rewrite mget_mtab.
Qed.
(** ** when training succeeds *)
Lemma fit_succeeds :
  (exists i, inv normal_mat = Ok i) <->
  (forall d, (forall l, (l < n)%nat -> wf l * lin p x d l = 0) -> (forall j, (j < p)%nat -> lam * d j = 0) ->
             forall j, (j < p)%nat -> d j = 0).
Proof.
  split.
  - intros [i I] d A B j Hj. destruct (inv_ok _ _ I) as (_ & Ir & Ic & _ & V). unfold normal_mat in V. rewrite mtab_nrows in V.
    apply (inverse_kernel p _ _ d V); [|assumption].
    intros k Hk. rewrite <- (proj2 (normal_kernel n p x wf y lam Hwpos Hlam d) (conj A B) k Hk).
    apply sumn_ext. intros q Hq. now rewrite mget_mtab.
  - intros K. apply inv_total; unfold normal_mat; rewrite mtab_nrows; [reflexivity|].
    intros v Z j Hj. apply K; [| |assumption];
      apply (proj1 (normal_kernel n p x wf y lam Hwpos Hlam v)); intros k Hk; rewrite <- (Z k Hk);
      apply sumn_ext; intros q Hq; now rewrite mget_mtab.
Qed.
Lemma fit_fails e : inv normal_mat = Err e -> e = LinAlgError.
Proof. intros I. apply inv_err in I; [tauto|]. unfold normal_mat. now rewrite mtab_nrows. Qed.
End Fit.
