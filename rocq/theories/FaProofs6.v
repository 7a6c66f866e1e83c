(** Grids of centers: members, neighbours, widths. *)
From Verif Require Import Base BaseLemmas ParamModel FaModel FaSpec FaProofs FaProofs2 FaProofs4 FaProofs5.

Lemma In_grid {A} (ls : list (list A)) : forall x, In x (grid ls) <-> Forall2 (fun a l => In a l) x ls.
Proof.
  induction ls as [|l ls IH]; intros x; cbn [grid].
  - split; [intros [<-|[]]; constructor|]. intros H. inversion H. now left.
  - rewrite in_flat_map. split.
    + intros (c & Hc & Hx). apply in_map_iff in Hx. destruct Hx as (y & <- & Hy). constructor; [assumption|]. now apply IH.
    + intros H. inversion H as [|a l' y ls' Ha Hy]; subst. exists a. split; [assumption|]. apply in_map_iff. exists y.
      split; [reflexivity|]. now apply IH.
Qed.
Lemma grid_rows {A} (ls : list (list A)) : Forall (fun r => length r = length ls) (grid ls).
Proof. apply Forall_forall. intros x Hx. apply In_grid in Hx. now apply Forall2_len in Hx. Qed.
Lemma NoDup_app' {A} (l m : list A) : NoDup l -> NoDup m -> (forall x, In x l -> ~ In x m) -> NoDup (l ++ m).
Proof.
  induction 1 as [|a l Na Hl IH]; intros Hm D; cbn; [assumption|]. constructor.
  - rewrite in_app_iff. intros [H|H]; [contradiction|]. exact (D a (or_introl eq_refl) H).
  - apply IH; [assumption|]. intros x Hx. apply D. now right.
Qed.
Lemma NoDup_grid {A} (ls : list (list A)) : Forall (@NoDup A) ls -> NoDup (grid ls).
Proof.
  induction 1 as [|l ls Hl _ IH]; cbn [grid]; [constructor; [easy|constructor]|].
  induction Hl as [|a l Na Hl IHl]; [constructor|]. cbn [flat_map]. apply NoDup_app'.
  - apply FinFun.Injective_map_NoDup; [intros ? ? [=]; assumption|assumption].
  - exact IHl.
  - intros x Hx Hx'. apply in_map_iff in Hx. destruct Hx as (y & <- & _). apply in_flat_map in Hx'.
    destruct Hx' as (c & Hc & Hy). apply in_map_iff in Hy. destruct Hy as (z & [= E _] & _). now subst.
Qed.

Lemma grid_repeat {A} (v : nat -> A) (n : nat -> nat) l :
  grid (map (fun k => repeat (v k) (n k)) l) = repeat (map v l) (prod (map n l)).
Proof.
  induction l as [|k l IH]; [reflexivity|]. cbn [map grid prod fold_right]. fold (prod (map n l)). rewrite IH.
  induction (n k) as [|m IHm]; [reflexivity|]. cbn [repeat flat_map]. rewrite IHm.
  rewrite Nat.mul_succ_l, Nat.add_comm, repeat_app. f_equal.
  clear. induction (prod (map n l)); cbn; [reflexivity|]. now rewrite IHn0.
Qed.

Lemma in_linspace a b n x : In x (linspace a b n) <-> exists i, (i < n)%nat /\ x = a + (b - a) * (INR i / INR (n - 1)).
Proof.
  destruct (linspace_equispaced a b n) as (L & E & _). split.
  - intros H. apply (In_nth_lt _ x 0) in H. rewrite L in H. destruct H as (i & Hi & <-). exists i. split; [assumption|]. now apply E.
  - intros (i & Hi & ->). rewrite <- E by assumption. apply nth_In. now rewrite L.
Qed.
Lemma linspace_NoDup a b n : n = 1%nat \/ a < b -> NoDup (linspace a b n).
Proof.
  intros [->|H]; [cbn; constructor; [easy|constructor]|].
  destruct (linspace_equispaced a b n) as (L & E & _). apply (NoDup_nth _ 0). rewrite L. intros i j Hi Hj.
  rewrite !E by assumption. intros Q.
  destruct (Nat.eq_dec n 1) as [->|N]; [lia|].
  assert (P : 0 < INR (n - 1)) by (apply lt_0_INR; lia).
  apply INR_eq. apply (Rmult_eq_reg_r ((b - a) / INR (n - 1))).
  - unfold Rdiv in *. nra.
  - apply Rgt_not_eq. apply Rdiv_lt_0_compat; lra.
Qed.

Lemma Forall2_nth {A B} (P : A -> B -> Prop) l m da db : Forall2 P l m ->
  forall i, (i < length m)%nat -> P (nth i l da) (nth i m db).
Proof. induction 1; intros [|i] Hi; cbn in *; try lia; [assumption|]. apply IHForall2. lia. Qed.
Lemma Forall2_of_nth {A B} (P : A -> B -> Prop) l m da db : length l = length m ->
  (forall i, (i < length m)%nat -> P (nth i l da) (nth i m db)) -> Forall2 P l m.
Proof.
  revert m. induction l as [|a l IH]; intros [|b m] L H; cbn in L; try lia; constructor.
  - apply (H 0%nat). cbn; lia.
  - apply IH; [lia|]. intros i Hi. apply (H (S i)). cbn; lia.
Qed.

(** ** neighbouring centers are one step apart *)
Section Neighbours.
Variables (d : nat) (los his : list R) (ns : list nat).
Let ls := map (fun k => linspace (nth k los 0) (nth k his 0) (nth k ns 0%nat)) (seq 0 d).

Lemma in_centers x : In x (grid ls) <-> length x = d /\
  forall k, (k < d)%nat -> In (nth k x 0) (linspace (nth k los 0) (nth k his 0) (nth k ns 0%nat)).
Proof.
  rewrite In_grid. unfold ls. split.
  - intros H. pose proof (Forall2_len _ _ _ H) as L. rewrite map_length, seq_length in L. split; [assumption|].
    intros k Hk. pose proof (Forall2_nth _ _ _ 0 [] H k) as Q. rewrite map_length, seq_length in Q.
    specialize (Q Hk). now rewrite nth_map_seq in Q.
  - intros [L H]. apply (Forall2_of_nth _ _ _ 0 []); rewrite map_length, seq_length; [assumption|].
    intros k Hk. rewrite nth_map_seq by assumption. now apply H.
Qed.
Lemma neighbours_step k a b : (k < d)%nat -> nth k los 0 <= nth k his 0 -> neighbours (grid ls) k a b ->
  (1 < nth k ns 0)%nat /\ nth k los 0 < nth k his 0 /\
  nth k b 0 - nth k a 0 = (nth k his 0 - nth k los 0) / INR (nth k ns 0%nat - 1).
Proof.
  intros Hk LH (Ia & Ib & Eq & Lt & Btw).
  set (lo := nth k los 0) in *. set (hi := nth k his 0) in *. set (n := nth k ns 0%nat) in *.
  pose proof (proj1 (in_centers a) Ia) as [La Ha]. pose proof (proj1 (in_centers b) Ib) as [Lb Hb].
  pose proof (proj1 (in_linspace lo hi n _) (Ha k Hk)) as (i & Hi & Ei).
  pose proof (proj1 (in_linspace lo hi n _) (Hb k Hk)) as (j & Hj & Ej).
  assert (NL : lo < hi).
  { destruct LH as [H|H]; [assumption|]. rewrite Ei, Ej, H in Lt. lra. }
  assert (N1 : (1 < n)%nat).
  { destruct (Nat.eq_dec n 1) as [E|]; [|lia]. assert (i = 0%nat) by lia. assert (j = 0%nat) by lia. subst i j.
    rewrite Ei, Ej in Lt. lra. }
  assert (P : 0 < INR (n - 1)) by (apply lt_0_INR; lia).
  assert (Q : 0 < (hi - lo) / INR (n - 1)) by (apply Rdiv_lt_0_compat; lra).
  assert (Ei' : nth k a 0 = lo + INR i * ((hi - lo) / INR (n - 1))) by (rewrite Ei; field; lra).
  assert (Ej' : nth k b 0 = lo + INR j * ((hi - lo) / INR (n - 1))) by (rewrite Ej; field; lra).
  assert (Hij : (i < j)%nat).
  { apply INR_lt. apply (Rmult_lt_reg_r ((hi - lo) / INR (n - 1))); [assumption|]. lra. }
  split; [assumption|]. split; [assumption|].
  destruct (Nat.eq_dec j (S i)) as [->|Nj].
  - rewrite Ei', Ej', S_INR. ring.
  - exfalso. set (v := lo + INR (S i) * ((hi - lo) / INR (n - 1))).
    assert (Hlen : length (set_nth a k v) = d) by (rewrite set_nth_length; assumption).
    apply (Btw (set_nth a k v)).
    + apply in_centers. split; [assumption|]. intros q Hq. destruct (Nat.eq_dec q k) as [->|Nq].
      * rewrite nth_set_nth_eq by lia. apply in_linspace. exists (S i). split; [lia|].
        unfold v. fold lo hi n. field. lra.
      * rewrite nth_set_nth_neq by assumption. now apply Ha.
    + rewrite nth_set_nth_eq by lia. rewrite Ei', Ej'. unfold v. rewrite S_INR.
      assert (INR i + 1 + 1 <= INR j) by (rewrite <- !S_INR; apply le_INR; lia). nra.
Qed.
End Neighbours.

(** ** activation halfway *)
Lemma gaussian_halfway d w a b k h : 0 < h < 1 -> length a = d -> length b = d -> length w = d -> (k < d)%nat ->
  (forall q, q <> k -> nth q a 0 = nth q b 0) -> (forall q, (q < d)%nat -> nth q w 0 <> 0) ->
  nth k a 0 <> nth k b 0 -> nth k w 0 = the_width h (nth k b 0 - nth k a 0) ->
  gaussian a w (midpoint a b) = h /\ gaussian b w (midpoint a b) = h.
Proof.
  intros Hh La Lb Lw Hk Eq Nw Nab Ew. pose proof (ln_neg h Hh) as LN.
  assert (key : forall c, length c = d -> (forall q, q <> k -> nth q c 0 = nth q a 0) ->
    (nth k (midpoint a b) 0 - nth k c 0)^2 = ((nth k b 0 - nth k a 0) / 2)^2 -> gaussian c w (midpoint a b) = h).
  { intros c Lc Ec Sq. unfold gaussian.
    assert (Lm : length (midpoint a b) = d) by (unfold midpoint; rewrite map2_length; lia).
    assert (E : rsum (map2 (fun d0 w0 => (d0 / w0)^2) (map2 Rminus (midpoint a b) c) w) =
                ((nth k (midpoint a b) 0 - nth k c 0) / nth k w 0)^2).
    { rewrite rsum_nth, !map2_length. replace (Nat.min (Nat.min _ _) _) with d by lia.
      rewrite <- (sumn_pick d k (fun q => ((nth q (midpoint a b) 0 - nth q c 0) / nth q w 0)^2) Hk).
      apply sumn_ext. intros q Hq.
      rewrite (nth_map2 _ _ _ q 0 0 0), (nth_map2 _ _ _ q 0 0 0) by (rewrite ?map2_length; lia).
      destruct (Nat.eqb_spec q k) as [->|N]; [reflexivity|].
      unfold midpoint. rewrite (nth_map2 _ a b q 0 0 0) by lia. rewrite (Ec q N), <- (Eq q N).
      unfold Rdiv at 1. replace ((nth q a 0 + nth q a 0) / 2 - nth q a 0) with 0 by field. ring. }
    rewrite E. unfold Rdiv at 2. rewrite Rpow_mult_distr, Sq, pow_inv, Ew. unfold the_width.
    set (z := nth k b 0 - nth k a 0). assert (Nz : z <> 0) by (unfold z; lra).
    assert (S0 : 0 < sqrt (- 8 * ln h)) by (now apply sqrt_lt_R0).
    assert (S2 : sqrt (- 8 * ln h) ^ 2 = - 8 * ln h) by (apply pow2_sqrt; lra).
    assert (A2 : Rabs z ^ 2 = z ^ 2) by apply pow2_abs.
    assert (NA : Rabs z <> 0) by now apply Rabs_no_R0.
    replace (- ((z / 2) ^ 2 * / (Rabs z / sqrt (- 8 * ln h)) ^ 2) / 2) with (ln h); [apply exp_ln; lra|].
    unfold Rdiv. rewrite !Rpow_mult_distr, !pow_inv, Rinv_mult, Rinv_inv, S2, A2. field. lra. }
  assert (Em : nth k (midpoint a b) 0 = (nth k a 0 + nth k b 0) / 2).
  { unfold midpoint. now rewrite (nth_map2 _ a b k 0 0 0) by lia. }
  split; apply key; auto; try (rewrite Em; field).
  intros q N. symmetry. now apply Eq.
Qed.
