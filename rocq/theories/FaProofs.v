(** Gauss-Jordan elimination: inv computes the inverse, and fails only on singular matrices. *)
From Verif Require Import Base BaseLemmas ParamModel FaModel.

Definition delta (i j : nat) : R := if Nat.eqb i j then 1 else 0.

Lemma sumn_pick n k f : (k < n)%nat -> sumn n (fun j => if Nat.eqb j k then f j else 0) = f k.
Proof.
  induction n as [|n IH]; intros H; [lia|]. cbn [sumn].
  destruct (Nat.eqb_spec n k) as [->|N].
  - rewrite sumn_zero; [lra|]. intros i Hi. destruct (Nat.eqb_spec i k); [lia|reflexivity].
  - rewrite IH by lia. lra.
Qed.
Lemma sumn_delta_l n k f : (k < n)%nat -> sumn n (fun j => delta k j * f j) = f k.
Proof.
  intros H. rewrite <- (sumn_pick n k f H). apply sumn_ext. intros i Hi. unfold delta.
  rewrite (Nat.eqb_sym k i). destruct (Nat.eqb i k); lra.
Qed.
Lemma sumn_delta_r n k f : (k < n)%nat -> sumn n (fun j => f j * delta j k) = f k.
Proof.
  intros H. rewrite <- (sumn_pick n k f H). apply sumn_ext. intros i Hi. unfold delta.
  destruct (Nat.eqb i k); lra.
Qed.
Lemma delta_refl i : delta i i = 1. Proof. unfold delta. now rewrite Nat.eqb_refl. Qed.
Lemma delta_neq i j : i <> j -> delta i j = 0.
Proof. intros H. unfold delta. destruct (Nat.eqb_spec i j); [lia|reflexivity]. Qed.

Definition is_inverse (n : nat) (A B : nat -> nat -> R) : Prop :=
  forall i j, (i < n)%nat -> (j < n)%nat ->
    sumn n (fun k => A i k * B k j) = delta i j /\ sumn n (fun k => B i k * A k j) = delta i j.

(** the product of two matrices *)
Definition fmul (n : nat) (A B : rowop) : rowop := fun i j => sumn n (fun k => A i k * B k j).
Lemma fmul_assoc n A B C i j : fmul n (fmul n A B) C i j = fmul n A (fmul n B C) i j.
Proof.
  unfold fmul.
  transitivity (sumn n (fun k => sumn n (fun l => A i l * B l k * C k j))).
  - apply sumn_ext. intros k _. rewrite <- sumn_scal_r. reflexivity.
  - rewrite sumn_swap. apply sumn_ext. intros l _. rewrite <- sumn_scal. apply sumn_ext. intros; ring.
Qed.
Lemma fmul_ext n A A' B B' i j : (i < n)%nat -> (j < n)%nat ->
  (forall k, (k < n)%nat -> A i k = A' i k) -> (forall k, (k < n)%nat -> B k j = B' k j) ->
  fmul n A B i j = fmul n A' B' i j.
Proof. intros Hi Hj EA EB. apply sumn_ext. intros k Hk. now rewrite EA, EB. Qed.

Record reduced (n k : nat) (A a b : rowop) : Prop := {
  red_left : forall i j, (i < n)%nat -> (j < n)%nat -> a i j = fmul n b A i j;
  red_back : exists Q : rowop,
    (forall i j, (i < n)%nat -> (j < n)%nat -> A i j = fmul n Q a i j) /\
    (forall i j, (i < n)%nat -> (j < n)%nat -> delta i j = fmul n Q b i j);
  red_unit : forall i j, (i < n)%nat -> (j < k)%nat -> a i j = delta i j }.

Lemma pivot_some a k n p : pivot a k n = Some p -> (k <= p < n)%nat /\ a p k <> 0.
Proof.
  induction n as [|n IH]; cbn [pivot]; [discriminate|].
  destruct (Nat.ltb_spec n k); [discriminate|]. destruct (Req_EM_T (a n k) 0).
  - intros E. apply IH in E. split; [lia|tauto].
  - intros [= <-]. split; [lia|assumption].
Qed.
Lemma pivot_none a k n : pivot a k n = None -> forall i, (k <= i < n)%nat -> a i k = 0.
Proof.
  induction n as [|n IH]; cbn [pivot]; [intros _ i H; lia|].
  destruct (Nat.ltb_spec n k); [intros _ i H'; lia|]. destruct (Req_EM_T (a n k) 0); [|discriminate].
  intros E i Hi. destruct (Nat.eq_dec i n) as [->|]; [assumption|]. apply IH; [assumption|lia].
Qed.

(** a step: the rows before are combinations F of the rows after, and conversely *)
Lemma reduced_step n k A a b a' b' (F G : rowop) :
  (forall i j, (i < n)%nat -> (j < n)%nat -> a' i j = fmul n G a i j) ->
  (forall i j, (i < n)%nat -> (j < n)%nat -> b' i j = fmul n G b i j) ->
  (forall i j, (i < n)%nat -> (j < n)%nat -> a i j = fmul n F a' i j) ->
  (forall i j, (i < n)%nat -> (j < n)%nat -> b i j = fmul n F b' i j) ->
  forall k', (forall i j, (i < n)%nat -> (j < k')%nat -> a' i j = delta i j) ->
  reduced n k A a b -> reduced n k' A a' b'.
Proof.
  intros Ga Gb Fa Fb k' U [L [Q [QA QB]] _]. split; [| |exact U].
  - intros i j Hi Hj. rewrite Ga by assumption.
    transitivity (fmul n G (fmul n b A) i j).
    + apply fmul_ext; auto.
    + rewrite <- fmul_assoc. apply fmul_ext; auto. intros; symmetry; auto.
  - exists (fmul n Q F). split; intros i j Hi Hj; rewrite fmul_assoc.
    + rewrite QA by assumption. apply fmul_ext; auto.
    + rewrite QB by assumption. apply fmul_ext; auto.
Qed.

Definition swapm (p k : nat) : rowop :=
  fun i l => if Nat.eqb i p then delta k l else if Nat.eqb i k then delta p l else delta i l.
Lemma swapm_mul n p k a i j : (p < n)%nat -> (k < n)%nat -> (i < n)%nat ->
  fmul n (swapm p k) a i j = swap_rows p k a i j.
Proof.
  intros Hp Hk Hi. unfold fmul, swapm, swap_rows.
  destruct (Nat.eqb i p); [now rewrite (sumn_delta_l n k (fun l => a l j))|].
  destruct (Nat.eqb i k); [now rewrite (sumn_delta_l n p (fun l => a l j))|].
  now rewrite (sumn_delta_l n i (fun l => a l j)).
Qed.
Lemma swap_swap p k a i j : swap_rows p k (swap_rows p k a) i j = a i j.
Proof.
  unfold swap_rows.
  repeat match goal with |- context [Nat.eqb ?x ?y] => destruct (Nat.eqb_spec x y) end; subst; congruence.
Qed.
Lemma reduced_swap n k p A a b : (k <= p < n)%nat -> reduced n k A a b ->
  reduced n k A (swap_rows p k a) (swap_rows p k b).
Proof.
  intros H R. apply (reduced_step n k A a b _ _ (swapm p k) (swapm p k)); try exact R;
    try (intros i j Hi Hj; rewrite swapm_mul by lia; auto; now rewrite swap_swap).
  intros i j Hi Hj. unfold swap_rows. pose proof (red_unit _ _ _ _ _ R) as U.
  destruct (Nat.eqb_spec i p) as [->|]; [|destruct (Nat.eqb_spec i k) as [->|]].
  - rewrite U by lia. rewrite !delta_neq by lia. reflexivity.
  - rewrite U by lia. rewrite !delta_neq by lia. reflexivity.
  - apply U; lia.
Qed.

Definition elim_fwd (k : nat) (a : rowop) : rowop :=
  fun i l => if Nat.eqb i k then delta k l / a k k else delta i l - a i k / a k k * delta k l.
Definition elim_back (k : nat) (a : rowop) : rowop :=
  fun i l => if Nat.eqb i k then a k k * delta k l else delta i l + a i k * delta k l.
Lemma elim_fwd_mul n k a b i j : (k < n)%nat -> (i < n)%nat -> a k k <> 0 ->
  fmul n (elim_fwd k a) b i j = eliminate k a b i j.
Proof.
  intros Hk Hi N. unfold fmul, elim_fwd, eliminate. destruct (Nat.eqb i k).
  - rewrite (sumn_ext _ _ (fun l => delta k l * (b l j / a k k))) by (intros; field; assumption).
    now rewrite (sumn_delta_l n k (fun l => b l j / a k k)).
  - rewrite (sumn_ext _ _ (fun l => delta i l * b l j - delta k l * (a i k / a k k * b l j)))
      by (intros; ring).
    rewrite sumn_minus, (sumn_delta_l n i (fun l => b l j)), (sumn_delta_l n k (fun l => a i k / a k k * b l j))
      by assumption. field. assumption.
Qed.
Lemma elim_back_mul n k a b i j : (k < n)%nat -> (i < n)%nat -> a k k <> 0 ->
  fmul n (elim_back k a) (eliminate k a b) i j = b i j.
Proof.
  intros Hk Hi N. unfold fmul, elim_back. destruct (Nat.eqb_spec i k) as [->|Nik].
  - rewrite (sumn_ext _ _ (fun l => delta k l * (a k k * eliminate k a b l j))) by (intros; ring).
    rewrite (sumn_delta_l n k (fun l => a k k * eliminate k a b l j)) by assumption.
    unfold eliminate. rewrite Nat.eqb_refl. field. assumption.
  - rewrite (sumn_ext _ _ (fun l => delta i l * eliminate k a b l j + delta k l * (a i k * eliminate k a b l j)))
      by (intros; ring).
    rewrite sumn_plus, (sumn_delta_l n i (fun l => eliminate k a b l j)),
      (sumn_delta_l n k (fun l => a i k * eliminate k a b l j)) by assumption.
    unfold eliminate. rewrite Nat.eqb_refl. destruct (Nat.eqb_spec i k); [contradiction|]. ring.
Qed.
Lemma reduced_elim n k A a b : (k < n)%nat -> a k k <> 0 -> reduced n k A a b ->
  reduced n (S k) A (eliminate k a a) (eliminate k a b).
Proof.
  intros Hk N R. apply (reduced_step n k A a b _ _ (elim_back k a) (elim_fwd k a)); try exact R;
    try (intros i j Hi Hj; rewrite ?elim_fwd_mul, ?elim_back_mul by assumption; reflexivity).
  pose proof (red_unit _ _ _ _ _ R) as U.
  intros i j Hi Hj. unfold eliminate. destruct (Nat.eqb_spec i k) as [->|Nik].
  - destruct (Nat.eq_dec j k) as [->|]; [rewrite delta_refl; field; assumption|].
    rewrite U by lia. rewrite delta_neq by lia. field. assumption.
  - destruct (Nat.eq_dec j k) as [->|].
    + rewrite delta_neq by lia. field. assumption.
    + rewrite (U i j), (U k j) by lia. rewrite (delta_neq k j) by lia. field. assumption.
Qed.

Lemma gauss_spec n A : forall todo k a b, (k + todo)%nat = n -> reduced n k A a b ->
  match gauss n k todo a b with
  | Ok B => is_inverse n A B
  | Err e => e = LinAlgError /\
             exists v, (exists j, (j < n)%nat /\ v j <> 0) /\
                       forall i, (i < n)%nat -> sumn n (fun j => A i j * v j) = 0
  end.
Proof.
  induction todo as [|todo IH]; intros k a b E R; cbn [gauss].
  - replace k with n in R by lia. destruct R as [L [Q [QA QB]] U]. intros i j Hi Hj. split.
    + rewrite QB by assumption. apply sumn_ext. intros l Hl. f_equal. rewrite QA by assumption.
      unfold fmul. rewrite (sumn_ext _ _ (fun k => Q i k * delta k l)) by (intros; rewrite U by assumption; reflexivity).
      now rewrite (sumn_delta_r n l (fun k => Q i k)).
    + symmetry. rewrite <- U by assumption. now apply L.
  - destruct (pivot a k n) as [p|] eqn:P.
    + apply pivot_some in P. destruct P as [Hp Np]. apply IH; [lia|].
      apply reduced_elim; [lia| |now apply reduced_swap].
      unfold swap_rows. destruct (Nat.eqb_spec k p) as [<-|]; [assumption|]. now rewrite Nat.eqb_refl.
    + pose proof (pivot_none _ _ _ P) as Z. split; [reflexivity|].
      destruct R as [L [Q [QA QB]] U].
      set (v := fun j => if Nat.ltb j k then - a j k else delta j k).
      assert (Hv : forall i, (i < n)%nat -> sumn n (fun j => a i j * v j) = 0).
      { intros i Hi.
        destruct (Nat.lt_ge_cases i k) as [H|H].
        - rewrite (sumn_ext _ _ (fun j => delta i j * - a j k + a i j * delta j k)).
          + rewrite sumn_plus, (sumn_delta_l n i (fun j => - a j k)), (sumn_delta_r n k (fun j => a i j)) by lia.
            ring.
          + intros j Hj. unfold v. destruct (Nat.ltb_spec j k).
            * rewrite U by lia. rewrite (delta_neq j k) by lia. ring.
            * destruct (Nat.eq_dec j k) as [->|].
              -- rewrite delta_refl, (delta_neq i k) by lia. ring.
              -- rewrite (delta_neq j k), (delta_neq i j) by lia. ring.
        - rewrite (sumn_ext _ _ (fun j => a i j * delta j k)).
          + rewrite (sumn_delta_r n k (fun j => a i j)) by lia. apply Z. lia.
          + intros j Hj. unfold v. destruct (Nat.ltb_spec j k); [|reflexivity].
            rewrite U by lia. rewrite delta_neq by lia. ring. }
      exists v. split.
      * exists k. split; [lia|]. unfold v. rewrite Nat.ltb_irrefl, delta_refl. lra.
      * intros i Hi. rewrite (sumn_ext _ _ (fun j => sumn n (fun l => Q i l * a l j) * v j))
          by (intros; rewrite QA by assumption; reflexivity).
        rewrite (sumn_ext _ _ (fun j => sumn n (fun l => Q i l * (a l j * v j)))).
        2: { intros j Hj. rewrite <- sumn_scal_r. apply sumn_ext. intros; ring. }
        rewrite sumn_swap. apply sumn_zero. intros l Hl. rewrite sumn_scal, Hv by assumption. ring.
Qed.

Lemma mget_meye n i j : (i < n)%nat -> (j < n)%nat -> mget (meye n) i j = delta i j.
Proof. intros Hi Hj. unfold meye. now rewrite mget_mtab. Qed.

Lemma reduced_start n A I : (forall i j, (i < n)%nat -> (j < n)%nat -> I i j = delta i j) -> reduced n 0 A A I.
Proof.
  intros HI. split.
  - intros i j Hi Hj. unfold fmul. rewrite (sumn_ext _ _ (fun k => delta i k * A k j))
      by (intros; rewrite HI by assumption; reflexivity). now rewrite (sumn_delta_l n i (fun k => A k j)).
  - exists delta. split; intros i j Hi Hj; unfold fmul.
    + now rewrite (sumn_delta_l n i (fun k => A k j)).
    + rewrite (sumn_delta_l n i (fun k => I k j)) by assumption. symmetry. now apply HI.
  - intros; lia.
Qed.

(** ** the two theorems about inv *)
Lemma inv_ok m b : inv m = Ok b ->
  mcols m = nrows m /\ nrows b = nrows m /\ mcols b = nrows m /\ mat_wf b /\
  is_inverse (nrows m) (mget m) (mget b).
Proof.
  unfold inv. destruct (Nat.eqb_spec (mcols m) (nrows m)) as [E|]; [|discriminate].
  set (n := nrows m) in *.
  pose proof (gauss_spec n (mget m) n 0 (mget m) (mget (meye n)) eq_refl
                (reduced_start n (mget m) _ (mget_meye n))) as G.
  destruct (gauss n 0 n (mget m) (mget (meye n))) as [B|e]; cbn [bind]; [|discriminate].
  intros [= <-]. split; [assumption|]. split; [apply mtab_nrows|]. split; [reflexivity|]. split; [apply mtab_wf|].
  intros i j Hi Hj. destruct (G i j Hi Hj) as [G1 G2]. split.
  - rewrite <- G1. apply sumn_ext. intros k Hk. now rewrite mget_mtab.
  - rewrite <- G2. apply sumn_ext. intros k Hk. now rewrite mget_mtab.
Qed.
Lemma inv_err m e : mcols m = nrows m -> inv m = Err e ->
  e = LinAlgError /\ exists v, (exists j, (j < nrows m)%nat /\ v j <> 0) /\
    forall i, (i < nrows m)%nat -> sumn (nrows m) (fun j => mget m i j * v j) = 0.
Proof.
  unfold inv. intros E. rewrite E, Nat.eqb_refl. set (n := nrows m) in *.
  pose proof (gauss_spec n (mget m) n 0 (mget m) (mget (meye n)) eq_refl
                (reduced_start n (mget m) _ (mget_meye n))) as G.
  destruct (gauss n 0 n (mget m) (mget (meye n))) as [B|e']; cbn [bind]; [discriminate|].
  intros [= <-]. exact G.
Qed.

(** a matrix with an inverse has trivial kernel *)
Lemma inverse_kernel n A B v : is_inverse n A B ->
  (forall i, (i < n)%nat -> sumn n (fun j => A i j * v j) = 0) -> forall j, (j < n)%nat -> v j = 0.
Proof.
  intros I Z j Hj.
  transitivity (sumn n (fun l => sumn n (fun i => B j i * A i l) * v l)).
  - rewrite (sumn_ext _ _ (fun l => delta j l * v l)) by (intros l Hl; destruct (I j l Hj Hl) as [_ ->]; reflexivity).
    now rewrite sumn_delta_l.
  - rewrite (sumn_ext _ _ (fun l => sumn n (fun i => B j i * (A i l * v l)))).
    2: { intros l Hl. rewrite <- sumn_scal_r. apply sumn_ext; intros; ring. }
    rewrite sumn_swap. apply sumn_zero. intros i Hi. rewrite sumn_scal, Z by assumption. ring.
Qed.
(** inv succeeds exactly on the square matrices with trivial kernel *)
Lemma inv_total m : mcols m = nrows m ->
  (forall v, (forall i, (i < nrows m)%nat -> sumn (nrows m) (fun j => mget m i j * v j) = 0) ->
             forall j, (j < nrows m)%nat -> v j = 0) ->
  exists b, inv m = Ok b.
Proof.
  intros E K. destruct (inv m) as [b|e] eqn:I; [eauto|].
  destruct (inv_err m e E I) as [_ [v [[j [Hj N]] Z]]]. contradiction (N (K v Z j Hj)).
Qed.
Lemma inv_singular m v j : mcols m = nrows m -> (j < nrows m)%nat -> v j <> 0 ->
  (forall i, (i < nrows m)%nat -> sumn (nrows m) (fun j => mget m i j * v j) = 0) -> inv m = Err LinAlgError.
Proof.
  intros E Hj N Z. destruct (inv m) as [b|e] eqn:I.
  - destruct (inv_ok m b I) as (_ & _ & _ & _ & V). contradiction (N (inverse_kernel _ _ _ v V Z j Hj)).
  - destruct (inv_err m e E I) as [-> _]. reflexivity.
Qed.
