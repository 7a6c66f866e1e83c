(** The matrix of Gaussians of distinct points is regular. *)
From Verif Require Import Base BaseLemmas FaSpec FaProofs FaProofs2 FaProofs3 FaProofs4.
From Coq Require Import Reals.
Open Scope list_scope.
Open Scope R_scope.

(** Sum over i, j < n of a_i a_j (x_i . x_j)^p *)
Section Powers.
Variables (n d : nat) (x : nat -> nat -> R).
Definition ip (i j : nat) : R := sumn d (fun k => x i k * x j k).
Definition qp (p : nat) (a : nat -> R) : R := sumn n (fun i => sumn n (fun j => a i * a j * ip i j ^ p)).

Lemma qp_0 a : qp 0 a = (sumn n a)^2.
Proof.
  unfold qp. rewrite <- Rsqr_pow2. unfold Rsqr. rewrite <- sumn_scal_r. apply sumn_ext. intros i Hi.
  rewrite <- sumn_scal. apply sumn_ext. intros j Hj. cbn. ring.
Qed.
Lemma qp_S p a : qp (S p) a = sumn d (fun k => qp p (fun i => a i * x i k)).
Proof.
  unfold qp. symmetry. rewrite sumn_swap. apply sumn_ext. intros i Hi. rewrite sumn_swap. apply sumn_ext. intros j Hj.
  symmetry.
  cbn [pow]. unfold ip at 1.
  replace (a i * a j * (sumn d (fun k => x i k * x j k) * ip i j ^ p))
    with (a i * a j * ip i j ^ p * sumn d (fun k => x i k * x j k)) by ring.
  rewrite <- sumn_scal. apply sumn_ext. intros; ring.
Qed.
Lemma qp_nonneg p : forall a, 0 <= qp p a.
Proof.
  induction p as [|p IH]; intros a; [rewrite qp_0; apply pow2_ge_0|]. rewrite qp_S. apply sumn_nonneg. intros; apply IH.
Qed.
(** a product of linear functions *)
Fixpoint lprod (us : list (nat -> R)) (i : nat) : R :=
  match us with [] => 1 | u :: us => sumn d (fun k => u k * x i k) * lprod us i end.
Lemma qp_zero us : forall a, qp (length us) a = 0 -> sumn n (fun i => a i * lprod us i) = 0.
Proof.
  induction us as [|u us IH]; intros a Z; cbn [length lprod] in *.
  - rewrite qp_0 in Z. rewrite (sumn_ext _ _ a) by (intros; ring). nra.
  - rewrite qp_S in Z.
    assert (K : forall k, (k < d)%nat -> qp (length us) (fun i => a i * x i k) = 0).
    { apply sumn_eq0; [intros; apply qp_nonneg|exact Z]. }
    transitivity (sumn d (fun k => u k * sumn n (fun i => a i * x i k * lprod us i))).
    + transitivity (sumn n (fun i => sumn d (fun k => a i * lprod us i * (u k * x i k)))).
      { apply sumn_ext. intros i Hi. rewrite sumn_scal. ring. }
      rewrite sumn_swap. apply sumn_ext. intros k Hk. rewrite <- sumn_scal. apply sumn_ext. intros; ring.
    + apply sumn_zero. intros k Hk. rewrite (IH _ (K k Hk)). ring.
Qed.
End Powers.

(** ** the exponential series *)
Lemma exp_series t : Un_cv (fun N => sum_f_R0 (fun p => / INR (fact p) * t ^ p) N) (exp t).
Proof. unfold exp. destruct (exist_exp t) as [l H]. exact H. Qed.
Lemma cv_const c : Un_cv (fun _ => c) c.
Proof. intros e He. exists 0%nat. intros. unfold R_dist. rewrite Rminus_diag_eq, Rabs_R0 by reflexivity. assumption. Qed.
Lemma cv_sumn m (u : nat -> nat -> R) l : (forall i, (i < m)%nat -> Un_cv (u i) (l i)) ->
  Un_cv (fun N => sumn m (fun i => u i N)) (sumn m l).
Proof.
  induction m as [|m IH]; intros H; cbn [sumn]; [apply cv_const|].
  apply (CV_plus (fun N => sumn m (fun i => u i N)) (u m)); [apply IH; intros; apply H; lia|apply H; lia].
Qed.
Lemma sum_f_R0_scal c f N : sum_f_R0 (fun p => c * f p) N = c * sum_f_R0 f N.
Proof. induction N as [|N IH]; cbn; [reflexivity|]. rewrite IH. ring. Qed.
Lemma sumn_sum_f m N (f : nat -> nat -> R) :
  sumn m (fun i => sum_f_R0 (f i) N) = sum_f_R0 (fun p => sumn m (fun i => f i p)) N.
Proof. induction N as [|N IH]; cbn; [reflexivity|]. rewrite sumn_plus, IH. reflexivity. Qed.

Section ExpKernel.
Variables (n d : nat) (x : nat -> nat -> R).
Lemma exp_kernel_series a :
  Un_cv (fun N => sum_f_R0 (fun p => / INR (fact p) * qp n d x p a) N)
        (sumn n (fun i => sumn n (fun j => a i * a j * exp (ip d x i j)))).
Proof.
  assert (H : Un_cv (fun N => sumn n (fun i => sumn n (fun j =>
      a i * a j * sum_f_R0 (fun p => / INR (fact p) * ip d x i j ^ p) N)))
      (sumn n (fun i => sumn n (fun j => a i * a j * exp (ip d x i j))))).
  { apply (cv_sumn n (fun i N => sumn n (fun j => a i * a j * sum_f_R0 (fun p => / INR (fact p) * ip d x i j ^ p) N))).
    intros i _. apply (cv_sumn n (fun j N => a i * a j * sum_f_R0 (fun p => / INR (fact p) * ip d x i j ^ p) N)).
    intros j _. apply (CV_mult (fun _ => a i * a j)); [apply cv_const|apply exp_series]. }
  eapply Un_cv_ext; [|exact H]. intros N. cbn beta.
  transitivity (sumn n (fun i => sum_f_R0 (fun p => sumn n (fun j => a i * a j * (/ INR (fact p) * ip d x i j ^ p))) N)).
  - apply sumn_ext. intros i _. rewrite <- sumn_sum_f. apply sumn_ext. intros j _. now rewrite sum_f_R0_scal.
  - rewrite sumn_sum_f. apply sum_eq. intros p _. unfold qp. rewrite <- sumn_scal. apply sumn_ext. intros i _.
    rewrite <- sumn_scal. apply sumn_ext. intros j _. ring.
Qed.
Lemma exp_kernel_zero a : sumn n (fun i => sumn n (fun j => a i * a j * exp (ip d x i j))) = 0 ->
  forall p, qp n d x p a = 0.
Proof.
  intros Z p. pose proof (exp_kernel_series a) as C. rewrite Z in C.
  assert (F : forall q, 0 < / INR (fact q)) by (intros; apply Rinv_0_lt_compat, INR_fact_lt_0).
  assert (G : Un_growing (fun N => sum_f_R0 (fun p => / INR (fact p) * qp n d x p a) N)).
  { intros N. cbn. pose proof (F (S N)). pose proof (qp_nonneg n d x (S N) a). cbn in H. nra. }
  pose proof (growing_ineq _ _ G C p) as U. cbn beta in U.
  assert (Hp : / INR (fact p) * qp n d x p a <= 0).
  { eapply Rle_trans; [|exact U]. destruct p as [|p]; [cbn; lra|]. cbn [sum_f_R0].
    assert (0 <= sum_f_R0 (fun p => / INR (fact p) * qp n d x p a) p); [|lra].
    apply cond_pos_sum. intros q. pose proof (F q). pose proof (qp_nonneg n d x q a). nra. }
  pose proof (F p). pose proof (qp_nonneg n d x p a). nra.
Qed.
End ExpKernel.

(** ** distinct points *)
Section Distinct.
Variables (n d : nat) (x : nat -> nat -> R).
(** a leading coordinate 1 *)
Definition aug (i k : nat) : R := match k with O => 1 | S k => x i k end.
Lemma sumn_S_l m f : sumn (S m) f = f 0%nat + sumn m (fun k => f (S k)).
Proof. induction m as [|m IH]; [cbn; ring|]. cbn [sumn] in *. rewrite IH. ring. Qed.
Lemma ip_aug i j : ip (S d) aug i j = 1 + ip d x i j.
Proof. unfold ip. rewrite sumn_S_l. cbn. ring. Qed.

Lemma exp_kernel_regular a :
  (forall i j, (i < n)%nat -> (j < n)%nat -> i <> j -> exists k, (k < d)%nat /\ x i k <> x j k) ->
  sumn n (fun i => sumn n (fun j => a i * a j * exp (ip d x i j))) = 0 ->
  forall i, (i < n)%nat -> a i = 0.
Proof.
  intros Dis Z i0 Hi0.
  assert (Z' : sumn n (fun i => sumn n (fun j => a i * a j * exp (ip (S d) aug i j))) = 0).
  { transitivity (exp 1 * sumn n (fun i => sumn n (fun j => a i * a j * exp (ip d x i j)))); [|rewrite Z; ring].
    rewrite <- sumn_scal. apply sumn_ext. intros i _. rewrite <- sumn_scal. apply sumn_ext. intros j _.
    rewrite ip_aug, exp_plus. ring. }
  pose proof (exp_kernel_zero n (S d) aug a Z') as Q.
  (* linear functions that vanish at the other points *)
  assert (L : forall m, (m <= n)%nat -> exists us, lprod (S d) aug us i0 <> 0 /\ forall j, (j < m)%nat -> j <> i0 -> lprod (S d) aug us j = 0).
  { induction m as [|m IH]; intros Hm; [exists []; split; [cbn; lra|intros; lia]|].
    destruct (IH ltac:(lia)) as (us & N & V).
    destruct (Nat.eq_dec m i0) as [->|Ne].
    - exists us. split; [assumption|]. intros j Hj Nj. apply V; lia.
    - destruct (Dis i0 m Hi0 ltac:(lia) ltac:(lia)) as (k & Hk & Nk).
      exists ((fun c => match c with O => - x m k | S c => delta k c end) :: us).
      assert (E : forall i, sumn (S d) (fun c => match c with O => - x m k | S c => delta k c end * aug i c) = x i k - x m k).
      { intros i. rewrite sumn_S_l. cbn [aug]. rewrite (sumn_delta_l d k (x i)) by assumption. ring. }
      cbn [lprod]. rewrite E. split.
      + apply Rmult_integral_contrapositive. split; [lra|assumption].
      + intros j Hj Nj. rewrite E. destruct (Nat.eq_dec j m) as [->|Nm]; [ring|]. rewrite V by lia. ring. }
  destruct (L n (le_n n)) as (us & N & V).
  pose proof (qp_zero n (S d) aug us a (Q (length us))) as S0.
  assert (E : sumn n (fun i => a i * lprod (S d) aug us i) = a i0 * lprod (S d) aug us i0).
  { rewrite <- (sumn_pick n i0 (fun i => a i * lprod (S d) aug us i) Hi0). apply sumn_ext. intros i Hi.
    destruct (Nat.eqb_spec i i0) as [->|Ne]; [reflexivity|]. rewrite V by assumption. ring. }
  rewrite E in S0. apply Rmult_integral in S0. destruct S0; [assumption|contradiction].
Qed.
(** the Gaussian kernel *)
Lemma gaussian_kernel_regular c :
  (forall i j, (i < n)%nat -> (j < n)%nat -> i <> j -> exists k, (k < d)%nat /\ x i k <> x j k) ->
  (forall i, (i < n)%nat -> sumn n (fun j => exp (- sumn d (fun k => (x i k - x j k)^2) / 2) * c j) = 0) ->
  forall i, (i < n)%nat -> c i = 0.
Proof.
  intros Dis Z.
  set (e := fun i => exp (- sumn d (fun k => x i k ^ 2) / 2)).
  assert (K : forall i j, exp (- sumn d (fun k => (x i k - x j k)^2) / 2) = e i * e j * exp (ip d x i j)).
  { intros i j. unfold e. rewrite <- !exp_plus. f_equal. unfold ip.
    rewrite (sumn_ext d (fun k => (x i k - x j k)^2) (fun k => x i k ^ 2 + x j k ^ 2 - 2 * (x i k * x j k))) by (intros; ring).
    rewrite sumn_minus, sumn_plus, sumn_scal. lra. }
  assert (A : forall i, (i < n)%nat -> c i * e i = 0).
  { apply (exp_kernel_regular (fun i => c i * e i) Dis).
    apply sumn_zero. intros i Hi.
    transitivity (c i * sumn n (fun j => exp (- sumn d (fun k => (x i k - x j k)^2) / 2) * c j)); [|rewrite Z by assumption; ring].
    rewrite <- sumn_scal. apply sumn_ext. intros j Hj. rewrite K. ring. }
  intros i Hi. specialize (A i Hi). apply Rmult_integral in A. destruct A as [A|A]; [assumption|].
  pose proof (exp_pos (- sumn d (fun k => x i k ^ 2) / 2)). unfold e in A. lra.
Qed.
End Distinct.
