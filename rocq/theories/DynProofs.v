(** Proofs: vectors, exponential systems, sigmoid systems. *)
From Verif Require Import Base BaseLemmas DynModel DynSpec.
From Coquelicot Require Import Coquelicot.

Lemma vop_same f a b : length a = length b -> vop f a b = Ok (map2 f a b).
Proof. intros H; unfold vop; rewrite H, Nat.eqb_refl; reflexivity. Qed.

Lemma map2_seq (f : R -> R -> R) a b n : length a = n -> length b = n ->
  map2 f a b = map (fun i => f (nth i a 0) (nth i b 0)) (seq 0 n).
Proof.
  intros Ha Hb. rewrite (list_eq_map_nth 0 (map2 f a b)), map2_length, Ha, Hb, Nat.min_id.
  apply map_ext_in. intros i Hi. apply in_seq in Hi. apply nth_map2; lia.
Qed.

Lemma map_seq_of (f : R -> R) a n : length a = n -> map f a = map (fun i => f (nth i a 0)) (seq 0 n).
Proof.
  intros <-. rewrite (list_eq_map_nth 0 a) at 1. now rewrite map_map.
Qed.

Lemma pop_seq f p b n : par_ok p n -> length b = n ->
  pop f p b = Ok (map (fun i => f (par_val p i) (nth i b 0)) (seq 0 n)).
Proof.
  destruct p as [r|l]; cbn; intros Hp Hb.
  - now rewrite (map_seq_of (f r) b n).
  - rewrite vop_same by congruence. now rewrite (map2_seq f l b n).
Qed.

Lemma par_at_ok p n i : par_ok p n -> (i < n)%nat -> par_at p i = Ok (par_val p i).
Proof. destruct p; cbn; intros H Hi; [reflexivity|]. apply nth_res_ok. lia. Qed.

Lemma vdiv_ok a t : t <> 0 -> vdiv a t = Ok (map (fun x => x / t) a).
Proof. intros H; unfold vdiv. destruct (Req_EM_T t 0); [contradiction|reflexivity]. Qed.

(** ** limits of exponentials *)
Lemma exp_tends c : 0 < c -> forall eps, 0 < eps -> exists T, 0 <= T /\ forall t, T <= t -> exp (- c * t) < eps.
Proof.
  intros Hc eps He. exists (Rmax 0 (- ln eps / c + 1)). split; [apply Rmax_l|]. intros t Ht.
  rewrite <- (exp_ln eps He). apply exp_increasing.
  assert (- ln eps / c + 1 <= t) by (eapply Rle_trans; [apply Rmax_r|exact Ht]).
  assert (- ln eps / c < t) by lra.
  apply (Rmult_lt_compat_l c) in H0; [|exact Hc].
  replace (c * (- ln eps / c)) with (- ln eps) in H0 by (field; lra). lra.
Qed.

Lemma exp_decr c s t : 0 < c -> s <= t -> exp (- c * t) <= exp (- c * s).
Proof.
  intros Hc Hst. destruct (Rle_lt_or_eq_dec _ _ Hst) as [H|<-]; [|lra].
  left; apply exp_increasing. nra.
Qed.

(** ** Exponential systems *)
Definition eX (s : esys) (t : R) : list R :=
  map (fun i => (nth i (e_init s) 0 - nth i (e_attr s) 0) * exp (- par_val (e_alpha s) i * t / e_tau s)
                + nth i (e_attr s) 0) (seq 0 (length (e_init s))).
Definition eXd (s : esys) (t : R) : list R :=
  map (fun i => (nth i (e_init s) 0 - nth i (e_attr s) 0) * - (par_val (e_alpha s) i / e_tau s)
                * exp (- par_val (e_alpha s) i * t / e_tau s)) (seq 0 (length (e_init s))).

Lemma e_ana_ok s ts : e_tau s <> 0 -> length (e_attr s) = length (e_init s) ->
  par_ok (e_alpha s) (length (e_init s)) -> e_ana s ts = Ok (map (eX s) ts, map (eXd s) ts).
Proof.
  intros Ht Ha Hp. unfold e_ana.
  rewrite (mapM_pure _ (fun i => (par_val (e_alpha s) i, nth i (e_init s) 0, nth i (e_attr s) 0))).
  - cbn [bind]. destruct (Req_EM_T (e_tau s) 0); [contradiction|].
    f_equal. f_equal; apply map_ext; intros t; rewrite map_map; reflexivity.
  - intros i Hi. apply in_seq in Hi. rewrite (par_at_ok _ _ _ Hp) by lia. cbn [bind].
    rewrite (nth_res_ok _ _ 0) by lia; cbn [bind]. rewrite (nth_res_ok _ _ 0) by lia; reflexivity.
Qed.

Lemma e_diffeq_ok s x : e_tau s <> 0 -> length (e_attr s) = length (e_init s) ->
  par_ok (e_alpha s) (length (e_init s)) -> length x = length (e_init s) ->
  e_diffeq s x = Ok (map (fun i => par_val (e_alpha s) i * (nth i (e_attr s) 0 - nth i x 0) / e_tau s)
                         (seq 0 (length (e_init s)))).
Proof.
  intros Ht Ha Hp Hx. unfold e_diffeq.
  rewrite vop_same by congruence; cbn [bind].
  rewrite (map2_seq _ _ _ (length (e_init s))) by congruence.
  rewrite (pop_seq _ _ _ (length (e_init s))) by (trivial; now rewrite map_length, seq_length).
  cbn [bind]. rewrite vdiv_ok by assumption. rewrite map_map. f_equal. apply map_ext_in.
  intros i Hi. apply in_seq in Hi. rewrite nth_map_seq by lia. reflexivity.
Qed.

Lemma nth_eX s t i : (i < length (e_init s))%nat ->
  nth i (eX s t) 0 = (nth i (e_init s) 0 - nth i (e_attr s) 0) * exp (- par_val (e_alpha s) i * t / e_tau s)
                + nth i (e_attr s) 0.
Proof. intros; unfold eX; now rewrite nth_map_seq. Qed.

Lemma e_solves s : e_tau s <> 0 -> length (e_attr s) = length (e_init s) ->
  par_ok (e_alpha s) (length (e_init s)) -> solves (e_diffeq s) (e_ana s) (e_init s) (eX s) (eXd s).
Proof.
  intros Ht Ha Hp. repeat split.
  - intros ts; now apply e_ana_ok.
  - unfold eX. etransitivity; [|symmetry; apply (list_eq_map_nth 0)]. apply map_ext. intros i.
    replace (- par_val (e_alpha s) i * 0 / e_tau s) with 0 by (field; trivial). rewrite exp_0. ring.
  - intros t; unfold eX; now rewrite map_length, seq_length.
  - intros t; unfold eXd; now rewrite map_length, seq_length.
  - intros t d Hd. unfold comp.
    apply is_derive_Reals.
    apply (is_derive_ext (fun t => (nth d (e_init s) 0 - nth d (e_attr s) 0) * exp (- par_val (e_alpha s) d * t / e_tau s)
                + nth d (e_attr s) 0)).
    { intros u; now rewrite nth_eX. }
    unfold eXd. rewrite nth_map_seq by trivial.
    auto_derive; [trivial|]. unfold Rdiv; ring.
  - intros t. rewrite e_diffeq_ok; trivial; [|unfold eX; now rewrite map_length, seq_length].
    unfold eXd. f_equal. apply map_ext_in. intros i Hi. apply in_seq in Hi.
    rewrite nth_eX by lia. field; trivial.
Qed.

Lemma e_converges s d : (d < length (e_init s))%nat -> 0 < par_val (e_alpha s) d / e_tau s -> e_tau s <> 0 ->
  tends_to (comp (eX s) d) (nth d (e_attr s) 0) /\ approaches (comp (eX s) d) (nth d (e_attr s) 0).
Proof.
  intros Hd Ha Ht. set (c := par_val (e_alpha s) d / e_tau s) in *.
  set (v := nth d (e_init s) 0 - nth d (e_attr s) 0).
  assert (E : forall t, comp (eX s) d t - nth d (e_attr s) 0 = v * exp (- c * t)).
  { intros t. unfold comp. rewrite nth_eX by trivial. unfold v, c.
    replace (- (par_val (e_alpha s) d / e_tau s) * t) with (- par_val (e_alpha s) d * t / e_tau s) by (field; trivial).
    ring. }
  split.
  - intros eps He. destruct (exp_tends c Ha (eps / (Rabs v + 1))) as [T [_ HT]].
    { apply Rdiv_lt_0_compat; [trivial|]. pose proof (Rabs_pos v); lra. }
    exists T. intros t Hst. rewrite E. rewrite Rabs_mult, (Rabs_pos_eq (exp _)) by (left; apply exp_pos).
    specialize (HT t Hst). pose proof (Rabs_pos v). pose proof (exp_pos (- c * t)).
    apply (Rmult_lt_compat_l (Rabs v + 1)) in HT; [|lra].
    replace ((Rabs v + 1) * (eps / (Rabs v + 1))) with eps in HT by (field; lra). nra.
  - split; intros a b; intros; rewrite !E.
    + rewrite !Rabs_mult, !(Rabs_pos_eq (exp _)) by (left; apply exp_pos).
      apply Rmult_le_compat_l; [apply Rabs_pos|]. now apply exp_decr.
    + replace (v * exp (- c * a) * (v * exp (- c * b))) with (Rsqr v * (exp (- c * a) * exp (- c * b))) by (unfold Rsqr; ring).
      apply Rmult_le_pos; [apply Rle_0_sqr|]. left; apply Rmult_lt_0_compat; apply exp_pos.
Qed.
