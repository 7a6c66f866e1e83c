(** Sums of exponentials have few zeros: networks with one input are determined by as many distinct
    inputs as there are basis functions. *)
From Coq Require Import String Sorted.
From Verif Require Import Base BaseLemmas ParamModel FaModel FaSpec FaProofs FaProofs2 FaProofs3 FaProofs4 FaProofs5 FaProofs6 FaProofs7 FaProofs8 FaProofs9 FaProofs10.
Open Scope list_scope.
Open Scope R_scope.

(** ** sums of exponentials *)
Fixpoint esum (l : list (R * R)) (x : R) : R :=
  match l with [] => 0 | (c, m) :: l => c * exp (m * x) + esum l x end.
Definition shift (mu : R) (l : list (R * R)) : list (R * R) := map (fun cm => (fst cm, snd cm - mu)) l.
Definition slopes (l : list (R * R)) : list (R * R) := map (fun cm => (fst cm * snd cm, snd cm)) l.
Lemma esum_shift mu l x : esum (shift mu l) x = exp (- (mu * x)) * esum l x.
Proof.
  induction l as [|[c m] l IH]; cbn; [ring|]. fold (shift mu l). rewrite IH.
  replace ((m - mu) * x) with (- (mu * x) + m * x) by ring. rewrite exp_plus. ring.
Qed.
Lemma esum_derive l x : derivable_pt_lim (esum l) x (esum (slopes l) x).
Proof.
  induction l as [|[c m] l IH]; cbn; [apply derivable_pt_lim_const|]. fold (slopes l).
  apply (derivable_pt_lim_plus (fun x => c * exp (m * x)) (esum l)); [|exact IH].
  replace (c * m * exp (m * x)) with (c * (exp (m * x) * m)) by ring.
  apply (derivable_pt_lim_scal (fun x => exp (m * x))).
  apply (derivable_pt_lim_comp (fun x => m * x) exp).
  - pose proof (derivable_pt_lim_scal (fun x => x) m x 1 (derivable_pt_lim_id x)) as D. rewrite Rmult_1_r in D. exact D.
  - apply derivable_pt_lim_exp.
Qed.
(** Rolle, for lists *)
Lemma rolle_list f f' pts : (forall x, derivable_pt_lim f x (f' x)) -> StronglySorted Rlt pts ->
  Forall (fun x => f x = 0) pts ->
  exists qs, length qs = pred (length pts) /\ StronglySorted Rlt qs /\ Forall (fun x => f' x = 0) qs /\
    match pts with [] => True | p :: _ => Forall (Rlt p) qs end.
Proof.
  intros D. induction pts as [|p pts IH]; intros S Z; [exists []; cbn; auto using SSorted_nil|].
  inversion S as [|? ? S' L]; subst. inversion Z as [|? ? Zp Z']; subst. destruct (IH S' Z') as (qs & Lq & Sq & Zq & Fq).
  destruct pts as [|p2 pts]; [exists []; cbn; auto using SSorted_nil|].
  inversion L as [|? ? Lp _]; subst. inversion Z' as [|? ? Zp2 _]; subst.
  destruct (MVT_cor2 f f' p p2 Lp (fun c _ => D c)) as (c & E & Hc).
  exists (c :: qs). split; [cbn in *; lia|].
  assert (Fc : Forall (Rlt c) qs). { eapply Forall_impl; [|exact Fq]. intros a Ha. lra. }
  split; [constructor; assumption|]. split.
  - constructor; [|assumption]. rewrite Zp, Zp2 in E. assert (f' c * (p2 - p) = 0) by lra.
    apply Rmult_integral in H. destruct H; [assumption|lra].
  - constructor; [lra|]. eapply Forall_impl; [|exact Fc]. intros a Ha. lra.
Qed.
Lemma esum_zero : forall n l pts, length l = n -> NoDup (map snd l) -> StronglySorted Rlt pts -> (n <= length pts)%nat ->
  Forall (fun x => esum l x = 0) pts -> Forall (fun cm => fst cm = 0) l.
Proof.
  induction n as [|n IH]; intros l pts L ND S Le Z; [destruct l; [constructor|discriminate]|].
  destruct l as [|[c m] l]; [discriminate|]. cbn in L, ND. inversion ND as [|? ? NI ND']; subst.
  assert (Z1 : Forall (fun x => esum (shift m ((c, m) :: l)) x = 0) pts).
  { eapply Forall_impl; [|exact Z]. intros x E. cbn beta in E |- *. rewrite esum_shift, E. ring. }
  destruct (rolle_list _ _ pts (esum_derive (shift m ((c, m) :: l))) S Z1) as (qs & Lq & Sq & Zq & _).
  assert (Fl : Forall (fun cm => fst cm = 0) (slopes (shift m l))).
  { apply (IH _ qs).
    - unfold slopes, shift. rewrite !map_length. now injection L.
    - unfold slopes, shift. rewrite !map_map. cbn [fst snd]. rewrite <- (map_map snd (fun x => x - m)).
      apply FinFun.Injective_map_NoDup; [|assumption]. intros a b E. lra.
    - assumption.
    - lia.
    - eapply Forall_impl; [|exact Zq]. intros x E. cbn in E. replace (m - m) with 0 in E by ring.
      cbn beta. unfold slopes, shift. rewrite <- E. ring. }
  assert (Fl' : Forall (fun cm => fst cm = 0) l).
  { apply Forall_forall. intros [a b] Hin. rewrite Forall_forall in Fl.
    assert (H : In (a * (b - m), b - m) (slopes (shift m l))).
    { unfold slopes, shift. rewrite map_map. apply in_map_iff. exists (a, b). split; [reflexivity|assumption]. }
    apply Fl in H. cbn in H |- *. apply Rmult_integral in H. destruct H; [assumption|].
    exfalso. apply NI. apply in_map_iff. exists (a, b). split; [cbn; lra|assumption]. }
  constructor; [|assumption]. cbn.
  destruct pts as [|p pts]; [cbn in Le; lia|]. inversion Z as [|? ? Zp _]; subst. cbn in Zp.
  assert (E0 : esum l p = 0).
  { clear -Fl'. induction Fl' as [|[a b] l Ha F IH]; cbn; [reflexivity|]. cbn in Ha. rewrite IH, Ha. ring. }
  rewrite E0, Rplus_0_r in Zp. apply Rmult_integral in Zp. destruct Zp as [|Zp]; [assumption|]. pose proof (exp_pos (m * p)). lra.
Qed.

(** ** sorting distinct numbers *)
Fixpoint insert_r (x : R) (l : list R) : list R :=
  match l with [] => [x] | y :: l' => if Rlt_dec x y then x :: l else y :: insert_r x l' end.
Lemma insert_in x l z : In z (insert_r x l) <-> z = x \/ In z l.
Proof.
  induction l as [|y l IH]; cbn; [intuition|]. destruct (Rlt_dec x y); cbn; [intuition|]. rewrite IH. intuition.
Qed.
Lemma insert_sorted x l : ~ In x l -> StronglySorted Rlt l -> StronglySorted Rlt (insert_r x l).
Proof.
  induction l as [|y l IH]; cbn; intros NI S; [repeat constructor|]. inversion S as [|? ? S' F]; subst.
  destruct (Rlt_dec x y) as [Lt|Ge].
  - constructor; [assumption|]. constructor; [assumption|]. eapply Forall_impl; [|exact F]. intros; lra.
  - constructor; [apply IH; tauto|]. apply Forall_forall. intros z Hz. apply insert_in in Hz. destruct Hz as [->|Hz].
    + destruct (Rtotal_order x y) as [|[->|]]; [contradiction|exfalso; tauto|assumption].
    + rewrite Forall_forall in F. now apply F.
Qed.
Lemma insert_length x l : length (insert_r x l) = S (length l).
Proof. induction l as [|y l IH]; cbn; [reflexivity|]. destruct (Rlt_dec x y); cbn; [reflexivity|]. now rewrite IH. Qed.
Lemma sort_distinct l : NoDup l -> exists s, length s = length l /\ StronglySorted Rlt s /\ forall z, In z s <-> In z l.
Proof.
  induction 1 as [|x l NI ND (s & L & S & I)]; [exists []; split; [reflexivity|split; [constructor|tauto]]|].
  exists (insert_r x s). split; [rewrite insert_length, L; reflexivity|]. split.
  - apply insert_sorted; [|assumption]. now rewrite I.
  - intros z. rewrite insert_in, I. cbn. intuition.
Qed.

(** ** more unknowns than equations *)
Lemma underdetermined n m A : (m < n)%nat -> exists v : nat -> R, (exists j, (j < n)%nat /\ v j <> 0) /\
  forall i, (i < m)%nat -> sumn n (fun j => A i j * v j) = 0.
Proof.
  intros H. set (M := mtab n n (fun i j => if Nat.ltb i m then A i j else 0)).
  assert (Nr : nrows M = n) by apply nrows_mtab.
  destruct (inv M) as [b|e] eqn:I.
  - exfalso. destruct (inv_ok _ _ I) as (_ & _ & _ & _ & V). rewrite Nr in V.
    pose proof (proj1 (V m m H H)) as E. unfold delta in E. rewrite Nat.eqb_refl in E.
    rewrite sumn_zero in E; [lra|]. intros k Hk. unfold M. rewrite mget_mtab by assumption. rewrite Nat.ltb_irrefl. ring.
  - destruct (inv_err M e ltac:(rewrite Nr; reflexivity) I) as [_ (v & N & Z)]. rewrite Nr in *. exists v. split; [exact N|].
    intros i Hi. rewrite <- (Z i) by lia. apply sumn_ext. intros j Hj. unfold M. rewrite mget_mtab by lia.
    destruct (Nat.ltb_spec i m); [reflexivity|lia].
Qed.

(** ** one-dimensional networks *)
Lemma gaussian_1 c w x : w <> 0 ->
  gaussian [c] [w] [x] = exp (- (x / w)^2 / 2) * (exp (- (c / w)^2 / 2) * exp (c / w^2 * x)).
Proof.
  intros N. unfold gaussian. cbn. rewrite <- !exp_plus. f_equal. field. assumption.
Qed.
Lemma rbf_esum w C v x : w <> 0 -> length v = length C ->
  rbf_sum (map (fun c => [c]) C) (repeat [w] (length C)) v [x] =
  exp (- (x / w)^2 / 2) * esum (map2 (fun c a => (exp (- (c / w)^2 / 2) * a, c / w^2)) C v) x.
Proof.
  intros N. unfold rbf_sum, gaussians, dot. revert v. induction C as [|c C IH]; intros [|a v] L; try discriminate; cbn [map repeat length map2 rsum esum]; [ring|].
  rewrite IH by (now injection L). rewrite gaussian_1 by assumption. ring.
Qed.
Lemma rbf_independent w C v xs : w <> 0 -> NoDup C -> length v = length C ->
  (exists l, NoDup l /\ incl l xs /\ length l = length C) -> (forall x, In x xs -> length x = 1%nat) ->
  (forall x, In x xs -> rbf_sum (map (fun c => [c]) C) (repeat [w] (length C)) v x = 0) -> v = repeat 0 (length C).
Proof.
  intros N ND Lv (l & NDl & Inc & Ll) H1 Z.
  assert (El : l = map (fun x => [x]) (map (fun x => nth 0 x 0) l)).
  { rewrite map_map. rewrite <- (map_id l) at 1. apply map_ext_in. intros x Hx. specialize (H1 x (Inc x Hx)).
    destruct x as [|a [|? ?]]; try discriminate. reflexivity. }
  set (ps := map (fun x => nth 0 x 0) l) in *.
  assert (NDp : NoDup ps). { rewrite El in NDl. now apply NoDup_map_inv in NDl. }
  destruct (sort_distinct ps NDp) as (s & Ls & Ss & Is).
  set (E := map2 (fun c a => (exp (- (c / w)^2 / 2) * a, c / w^2)) C v) in *.
  assert (LE : length E = length C) by (unfold E; rewrite map2_length; lia).
  assert (F : Forall (fun cm => fst cm = 0) E).
  { apply (esum_zero (length C) E s).
    - assumption.
    - assert (Es : map snd E = map (fun c => c / w^2) C).
      { unfold E. clear -Lv. revert v Lv. induction C as [|c C IH]; intros [|a v] L; try discriminate; cbn; [reflexivity|]. f_equal. apply IH. now injection L. }
      rewrite Es. apply FinFun.Injective_map_NoDup; [|assumption]. intros a b Q. unfold Rdiv in Q.
      apply Rmult_eq_reg_r in Q; [assumption|]. apply Rinv_neq_0_compat. now apply pow_nonzero.
    - assumption.
    - rewrite Ls. unfold ps. rewrite map_length. lia.
    - apply Forall_forall. intros x Hx. apply Is in Hx.
      assert (Hin : In [x] xs). { apply Inc. rewrite El. now apply (in_map (fun x => [x])). }
      apply Z in Hin. rewrite rbf_esum in Hin by assumption. fold E in Hin. apply Rmult_integral in Hin. destruct Hin as [Hin|]; [|assumption].
      pose proof (exp_pos (- (x / w)^2 / 2)). lra. }
  clear -F Lv. unfold E in F. clear E. revert v Lv F. induction C as [|c C IH]; intros [|a v] L F; try discriminate; [reflexivity|].
  cbn in F |- *. inversion F as [|? ? Ha F']; subst. cbn in Ha. f_equal.
  - apply Rmult_integral in Ha. destruct Ha as [Ha|]; [|assumption]. pose proof (exp_pos (- (c / w * (c / w * 1)) / 2)). lra.
  - apply IH; [now injection L|assumption].
Qed.
Lemma rbf_dependent C W (xs : list (list R)) : length W = length C ->
  (forall l, NoDup l -> incl l xs -> (length l < length C)%nat) ->
  exists v, length v = length C /\ v <> repeat 0 (length C) /\ forall x, In x xs -> rbf_sum C W v x = 0.
Proof.
  intros LW Few. set (u := nodup list_rdec xs).
  assert (Lu : (length u < length C)%nat).
  { apply Few; [apply NoDup_nodup|]. intros x Hx. now apply nodup_In in Hx. }
  set (n := length C) in *.
  destruct (underdetermined n (length u) (fun i j => nth j (gaussians C W (nth i u [])) 0) Lu) as (v & (j & Hj & Nj) & Z).
  exists (map v (seq 0 n)). split; [now rewrite map_length, seq_length|]. split.
  - intros E. apply Nj. transitivity (nth j (map v (seq 0 n)) 0); [now rewrite nth_map_seq|]. rewrite E. now apply nth_rep.
  - intros x Hx. apply (nodup_In list_rdec) in Hx. fold u in Hx. apply (In_nth_lt u x []) in Hx. destruct Hx as (i & Hi & <-).
    rewrite <- (Z i Hi). unfold rbf_sum. rewrite (dot_sumn n); [|unfold gaussians; rewrite map2_length; fold n; lia|now rewrite map_length, seq_length].
    apply sumn_ext. intros k Hk. now rewrite nth_map_seq.
Qed.

Lemma NoDup_firstn {A} n (l : list A) : NoDup l -> NoDup (firstn n l).
Proof.
  intros ND. revert n. induction ND as [|x l NI ND IH]; intros [|n]; cbn; constructor; [|apply IH].
  intros H. apply NI. rewrite <- (firstn_skipn n l). apply in_or_app. now left.
Qed.
Lemma at_least_dec n xs : at_least n xs \/ (forall l, NoDup l -> incl l xs -> (length l < n)%nat).
Proof.
  destruct (Nat.le_gt_cases n (length (nodup list_rdec xs))) as [L|L].
  - left. exists (firstn n (nodup list_rdec xs)). split; [|split].
    + apply NoDup_firstn. apply NoDup_nodup.
    + intros x Hx. apply (nodup_In list_rdec). rewrite <- (firstn_skipn n (nodup list_rdec xs)). apply in_or_app. now left.
    + apply firstn_length_le. assumption.
  - right. intros l ND I. eapply Nat.le_lt_trans; [|exact L]. apply NoDup_incl_length; [assumption|]. intros x Hx. apply nodup_In. auto.
Qed.

(** training a network with one input, without regularization *)
Lemma grid_1 {A} (l : list A) : grid [l] = map (fun c => [c]) l.
Proof. cbn. induction l; cbn; [reflexivity|]. now rewrite IHl. Qed.
Lemma basis_1 xs n h C W : samples 1 xs -> (0 < n)%nat -> spread 1 xs [n] -> 0 < h < 1 -> basis 1 xs [n] h C W ->
  exists c w, C = map (fun c => [c]) c /\ W = repeat [w] (length c) /\ w <> 0 /\ NoDup c.
Proof.
  intros S N Sp H B.
  destruct (centers_and_widths 1 xs [n] h S ltac:(lia) eq_refl ltac:(repeat constructor; assumption) H) as (los & his & R & E).
  rewrite (bs_eq _ _ _ _ _ _ B) in E.
  assert (EC : C = grid [linspace (nth 0 los 0) (nth 0 his 0) n]) by (cbn in E |- *; congruence).
  assert (EW : W = grid [repeat (dim_width h (nth 0 los 0) (nth 0 his 0) n) n]).
  { cbn [seq map] in E. cbn [nth] in E. set (c := grid _) in E. set (w := grid _) in E.
    assert (W = w) by congruence. subst w. assumption. }
  exists (linspace (nth 0 los 0) (nth 0 his 0) n), (dim_width h (nth 0 los 0) (nth 0 his 0) n).
  rewrite linspace_length. split; [rewrite EC; apply grid_1|]. split.
  { rewrite EW, grid_1. generalize (dim_width h (nth 0 los 0) (nth 0 his 0) n). clear. intros r.
    induction n as [|n IH]; cbn; [reflexivity|]. now rewrite <- IH. }
  destruct (spread_range 1 xs [n] 0 _ _ S Sp ltac:(lia) (R 0%nat ltac:(lia))) as [Le D]. cbn [nth] in D. split.
  - unfold dim_width. destruct (Nat.leb_spec n 1); [lra|]. destruct D as [|D]; [lia|].
    apply Rgt_not_eq. apply the_width_pos; [assumption|]. apply Rgt_not_eq. apply Rdiv_lt_0_compat; [lra|]. apply lt_0_INR. lia.
  - apply linspace_NoDup. destruct D as [->|D]; [now left|now right].
Qed.
Lemma rbfn_1_ok xs ys t n h : samples 1 xs -> (0 < n)%nat -> spread 1 xs [n] -> 0 < h < 1 ->
  length ys = length xs -> targets_are t ys ->
  (is_ok (rbfn_train exp [n] h 0 t (Mat 1 xs)) <-> at_least n xs).
Proof.
  intros S N Sp H Ly T.
  assert (P : per_dim 1 [n]) by (split; [reflexivity|repeat constructor; assumption]).
  destruct (basis_exists 1 xs [n] h S ltac:(lia) P Sp H) as (C & W & B).
  destruct (rbfn_train_ok 1 xs [n] h 0 ys t S ltac:(lia) Sp (Rle_refl 0) Ly T C W B) as [-> _].
  assert (LC : length C = n). { rewrite (bs_n _ _ _ _ _ _ B). unfold prod. cbn. lia. }
  destruct (basis_1 xs n h C W S N Sp H B) as (c & w & EC & EW & Nw & ND).
  assert (Lc : length c = n). { rewrite EC, map_length in LC. exact LC. }
  split.
  - intros [L|K]; [lra|]. destruct (at_least_dec n xs) as [|Few]; [assumption|]. exfalso.
    destruct (rbf_dependent C W xs) as (v & Lv & Nv & Z); [apply B|rewrite LC; exact Few|].
    apply Nv. now apply K.
  - intros A. right. intros v Lv Z. rewrite EC, map_length. apply (rbf_independent w c v xs); try assumption.
    + rewrite Lv, EC. apply map_length.
    + rewrite Lc. exact A.
    + intros x Hx. destruct S as [_ F]. rewrite Forall_forall in F. now apply F.
    + intros x Hx. rewrite <- EC, <- EW. now apply Z.
Qed.
