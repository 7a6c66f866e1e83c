(** Lemmas about Base. *)
From Verif Require Import Base.

Lemma mapM_ok_length {A B} (f : A -> res B) l ys : mapM f l = Ok ys -> length ys = length l.
Proof.
  revert ys; induction l as [|x l IH]; cbn; intros ys H.
  - injection H as <-; reflexivity.
  - destruct (f x) as [y|e]; cbn in H; [|discriminate].
    destruct (mapM f l) as [ys'|e]; cbn in H; [|discriminate].
    injection H as <-; cbn; f_equal; now apply IH.
Qed.

Lemma mapM_ok_iff {A B} (f : A -> res B) l ys :
  mapM f l = Ok ys <-> Forall2 (fun x y => f x = Ok y) l ys.
Proof.
  revert ys; induction l as [|x l IH]; cbn; intros ys.
  - split; intros H; [injection H as <-; constructor | inversion H; reflexivity].
  - split; intros H.
    + destruct (f x) as [y|e] eqn:Ey; cbn in H; [|discriminate].
      destruct (mapM f l) as [ys'|e] eqn:El; cbn in H; [|discriminate].
      injection H as <-. constructor; [exact Ey|]. now apply IH.
    + inversion H as [|x' y l' ys' Hxy Hl]; subst.
      rewrite Hxy; cbn. apply IH in Hl. rewrite Hl. reflexivity.
Qed.

Lemma mapM_pure {A B} (f : A -> res B) (g : A -> B) l :
  (forall x, In x l -> f x = Ok (g x)) -> mapM f l = Ok (map g l).
Proof.
  induction l as [|x l IH]; cbn; intros H; [reflexivity|].
  rewrite (H x) by (left; reflexivity); cbn.
  rewrite IH; [reflexivity|]. intros y Hy; apply H; right; exact Hy.
Qed.

Lemma mapM_ext {A B} (f g : A -> res B) l :
  (forall x, In x l -> f x = g x) -> mapM f l = mapM g l.
Proof.
  induction l as [|x l IH]; cbn; intros H; [reflexivity|].
  rewrite (H x) by (left; reflexivity). rewrite IH; [reflexivity|].
  intros y Hy; apply H; right; exact Hy.
Qed.

Lemma mapM_app {A B} (f : A -> res B) l1 l2 :
  mapM f (l1 ++ l2) = (let* a := mapM f l1 in let* b := mapM f l2 in Ok (a ++ b)).
Proof.
  induction l1 as [|x l1 IH]; cbn.
  - destruct (mapM f l2); reflexivity.
  - destruct (f x); cbn; [|reflexivity]. rewrite IH.
    destruct (mapM f l1); cbn; [|reflexivity]. destruct (mapM f l2); reflexivity.
Qed.

(** ** sums *)
Lemma rsum_app l m : rsum (l ++ m) = rsum l + rsum m.
Proof. induction l as [|x l IH]; cbn; [ring|rewrite IH; ring]. Qed.

Lemma rsum_perm l m : Permutation l m -> rsum l = rsum m.
Proof. induction 1; cbn; lra. Qed.

Lemma rsum_nonneg l : (forall x, In x l -> 0 <= x) -> 0 <= rsum l.
Proof.
  induction l as [|x l IH]; cbn; intros H; [lra|].
  pose proof (H x (or_introl eq_refl)). assert (0 <= rsum l) by (apply IH; auto). lra.
Qed.

Lemma rsum_pos l : l <> [] -> (forall x, In x l -> 0 < x) -> 0 < rsum l.
Proof.
  destruct l as [|x l]; [congruence|]. intros _ H; cbn.
  pose proof (H x (or_introl eq_refl)).
  assert (0 <= rsum l) by (apply rsum_nonneg; intros y Hy; left; apply H; right; exact Hy). lra.
Qed.

Lemma rsum_scal c l : rsum (map (fun x => c * x) l) = c * rsum l.
Proof. induction l as [|x l IH]; cbn; [ring|rewrite IH; ring]. Qed.

Lemma rsum_div c l : rsum (map (fun x => x / c) l) = rsum l / c.
Proof. unfold Rdiv. induction l as [|x l IH]; cbn; [ring|rewrite IH; ring]. Qed.

Lemma rsum_map_plus {A} (f g : A -> R) l :
  rsum (map (fun x => f x + g x) l) = rsum (map f l) + rsum (map g l).
Proof. induction l as [|x l IH]; cbn; [ring|rewrite IH; ring]. Qed.

Lemma rsum_map_scal {A} c (f : A -> R) l :
  rsum (map (fun x => c * f x) l) = c * rsum (map f l).
Proof. induction l as [|x l IH]; cbn; [ring|rewrite IH; ring]. Qed.

Lemma rsum_map_le {A} (f g : A -> R) l :
  (forall x, In x l -> f x <= g x) -> rsum (map f l) <= rsum (map g l).
Proof.
  induction l as [|x l IH]; cbn; intros H; [lra|].
  pose proof (H x (or_introl eq_refl)).
  assert (rsum (map f l) <= rsum (map g l)) by (apply IH; auto). lra.
Qed.

Lemma rsum_const {A} c (l : list A) : rsum (map (fun _ => c) l) = INR (length l) * c.
Proof.
  induction l as [|x l IH]; [cbn; ring|].
  cbn [map rsum length]. rewrite IH, S_INR; ring.
Qed.

Lemma rsum_zero l : (forall x, In x l -> x = 0) -> rsum l = 0.
Proof.
  induction l as [|x l IH]; cbn; intros H; [reflexivity|].
  rewrite (H x) by (left; reflexivity). rewrite IH; [lra|auto].
Qed.

Lemma sumn_ext n f g : (forall i, (i < n)%nat -> f i = g i) -> sumn n f = sumn n g.
Proof.
  induction n as [|n IH]; cbn; intros H; [reflexivity|].
  rewrite IH, (H n) by (intros; auto with arith); reflexivity.
Qed.

Lemma sumn_plus n f g : sumn n (fun i => f i + g i) = sumn n f + sumn n g.
Proof. induction n as [|n IH]; cbn; [ring|rewrite IH; ring]. Qed.

Lemma sumn_minus n f g : sumn n (fun i => f i - g i) = sumn n f - sumn n g.
Proof. induction n as [|n IH]; cbn; [ring|rewrite IH; ring]. Qed.

Lemma sumn_scal n c f : sumn n (fun i => c * f i) = c * sumn n f.
Proof. induction n as [|n IH]; cbn; [ring|rewrite IH; ring]. Qed.

Lemma sumn_scal_r n c f : sumn n (fun i => f i * c) = sumn n f * c.
Proof. induction n as [|n IH]; cbn; [ring|rewrite IH; ring]. Qed.

Lemma sumn_zero n f : (forall i, (i < n)%nat -> f i = 0) -> sumn n f = 0.
Proof.
  induction n as [|n IH]; cbn; intros H; [reflexivity|].
  rewrite IH, (H n) by (intros; auto with arith); ring.
Qed.

Lemma sumn_nonneg n f : (forall i, (i < n)%nat -> 0 <= f i) -> 0 <= sumn n f.
Proof.
  induction n as [|n IH]; cbn; intros H; [lra|].
  assert (0 <= sumn n f) by (apply IH; intros; apply H; lia).
  pose proof (H n ltac:(lia)). lra.
Qed.

Lemma sumn_le n f g : (forall i, (i < n)%nat -> f i <= g i) -> sumn n f <= sumn n g.
Proof.
  induction n as [|n IH]; cbn; intros H; [lra|].
  assert (sumn n f <= sumn n g) by (apply IH; intros; apply H; lia).
  pose proof (H n ltac:(lia)). lra.
Qed.

Lemma sumn_swap n m f :
  sumn n (fun i => sumn m (fun j => f i j)) = sumn m (fun j => sumn n (fun i => f i j)).
Proof.
  induction n as [|n IH]; cbn.
  - symmetry; apply sumn_zero; reflexivity.
  - rewrite IH, <- sumn_plus. apply sumn_ext; intros; reflexivity.
Qed.

Lemma rsum_seq f n : rsum (map f (seq 0 n)) = sumn n f.
Proof.
  induction n as [|n IH]; [reflexivity|].
  rewrite seq_S, map_app, rsum_app; cbn. rewrite IH; ring.
Qed.

Lemma nth_map_lt {A B} (f : A -> B) l i da db :
  (i < length l)%nat -> nth i (map f l) db = f (nth i l da).
Proof.
  revert i; induction l as [|x l IH]; intros i; cbn; [lia|].
  destruct i as [|i]; [reflexivity|]. intros; apply IH; lia.
Qed.

Lemma nth_map_seq {A} (f : nat -> A) n i d : (i < n)%nat -> nth i (map f (seq 0 n)) d = f i.
Proof.
  intros H. rewrite (nth_map_lt f _ i 0%nat) by now rewrite seq_length. now rewrite seq_nth.
Qed.

Lemma list_eq_map_nth {A} (d : A) (l : list A) : l = map (fun i => nth i l d) (seq 0 (length l)).
Proof.
  apply (nth_ext _ _ d d).
  - now rewrite map_length, seq_length.
  - intros n Hn. now rewrite nth_map_seq.
Qed.

Lemma rsum_nth l : rsum l = sumn (length l) (fun i => nth i l 0).
Proof. rewrite (list_eq_map_nth 0 l) at 1. apply rsum_seq. Qed.

(** ** set_nth, map2, nth *)
Lemma set_nth_length {A} (l : list A) i v : length (set_nth l i v) = length l.
Proof. revert i; induction l as [|x l IH]; intros [|i]; cbn; auto. Qed.

Lemma nth_set_nth {A} (l : list A) i j v d :
  nth j (set_nth l i v) d =
  if andb (Nat.eqb j i) (Nat.ltb i (length l)) then v else nth j l d.
Proof.
  revert i j; induction l as [|x l IH]; intros i j.
  - cbn [set_nth length]. destruct (j =? i)%nat; cbn; reflexivity.
  - destruct i as [|i], j as [|j]; try reflexivity.
    cbn [set_nth nth length]. rewrite IH. cbn [Nat.eqb]. reflexivity.
Qed.

Lemma nth_set_nth_eq {A} (l : list A) i v d : (i < length l)%nat -> nth i (set_nth l i v) d = v.
Proof.
  intros H. rewrite nth_set_nth, Nat.eqb_refl.
  destruct (Nat.ltb_spec i (length l)); [reflexivity|lia].
Qed.

Lemma nth_set_nth_neq {A} (l : list A) i j v d : j <> i -> nth j (set_nth l i v) d = nth j l d.
Proof. intros H. rewrite nth_set_nth. destruct (Nat.eqb_spec j i); [contradiction|reflexivity]. Qed.

Lemma map2_length {A B C} (f : A -> B -> C) l m :
  length (map2 f l m) = Nat.min (length l) (length m).
Proof. revert m; induction l as [|x l IH]; intros [|y m]; cbn; auto. Qed.

Lemma nth_map2 {A B C} (f : A -> B -> C) l m i da db dc :
  (i < length l)%nat -> (i < length m)%nat -> nth i (map2 f l m) dc = f (nth i l da) (nth i m db).
Proof.
  revert m i; induction l as [|x l IH]; intros [|y m] i; cbn; try lia.
  destruct i as [|i]; [reflexivity|]. intros; apply IH; lia.
Qed.

Lemma In_nth_lt {A} (l : list A) x d : In x l -> exists i, (i < length l)%nat /\ nth i l d = x.
Proof. intros H. destruct (In_nth l x d H) as (i & Hi & E). now exists i. Qed.

Lemma nth_res_ok {A} (l : list A) i d : (i < length l)%nat -> nth_res l i = Ok (nth i l d).
Proof. intros H. unfold nth_res. now rewrite (nth_error_nth' l d H). Qed.

Lemma nth_res_err {A} (l : list A) i : (length l <= i)%nat -> nth_res l i = Err IndexError.
Proof. intros H. unfold nth_res. apply nth_error_None in H. now rewrite H. Qed.

(** ** matrices *)
Lemma mtab_wf n m f : mat_wf (mtab n m f).
Proof.
  unfold mat_wf, mtab; cbn. apply Forall_forall. intros r Hr. apply in_map_iff in Hr.
  destruct Hr as (i & <- & _). now rewrite map_length, seq_length.
Qed.

Lemma mtab_nrows n m f : nrows (mtab n m f) = n.
Proof. unfold nrows, mtab; cbn. now rewrite map_length, seq_length. Qed.

Lemma mget_mtab n m f i j : (i < n)%nat -> (j < m)%nat -> mget (mtab n m f) i j = f i j.
Proof.
  intros Hi Hj. unfold mget, mtab; cbn [mrows].
  rewrite nth_map_seq by exact Hi. now rewrite nth_map_seq.
Qed.

Lemma mat_wf_row m i : mat_wf m -> (i < nrows m)%nat -> length (nth i (mrows m) []) = mcols m.
Proof.
  unfold mat_wf, nrows. intros H Hi. rewrite Forall_forall in H. apply H. now apply nth_In.
Qed.

Lemma Forall_set_nth {A} (P : A -> Prop) l i v : Forall P l -> P v -> Forall P (set_nth l i v).
Proof.
  intros Hl Hv. revert i; induction Hl as [|x l Hx Hl IH]; intros [|i]; cbn; auto.
Qed.

Lemma mset_nrows m i j v : nrows (mset m i j v) = nrows m.
Proof. unfold nrows, mset; cbn. apply set_nth_length. Qed.

Lemma mset_wf m i j v : mat_wf m -> (i < nrows m)%nat -> mat_wf (mset m i j v).
Proof.
  intros H Hi. unfold mat_wf; cbn. apply Forall_set_nth; [exact H|].
  rewrite set_nth_length. now apply mat_wf_row.
Qed.

Lemma mget_mset m i j v i' j' :
  mat_wf m -> (i < nrows m)%nat -> (j < mcols m)%nat ->
  mget (mset m i j v) i' j' = if andb (Nat.eqb i' i) (Nat.eqb j' j) then v else mget m i' j'.
Proof.
  intros Hwf Hi Hj. unfold mget, mset; cbn [mrows].
  rewrite nth_set_nth. unfold nrows in Hi.
  destruct (Nat.ltb_spec i (length (mrows m))) as [_|?]; [|lia].
  rewrite andb_true_r. destruct (Nat.eqb_spec i' i) as [->|Hne]; cbn [andb]; [|reflexivity].
  rewrite nth_set_nth.
  rewrite mat_wf_row by (unfold nrows; assumption).
  destruct (Nat.ltb_spec j (mcols m)) as [_|?]; [|lia].
  now rewrite andb_true_r.
Qed.

Lemma mat_ext a b :
  mat_wf a -> mat_wf b -> mcols a = mcols b -> nrows a = nrows b ->
  (forall i j, (i < nrows a)%nat -> (j < mcols a)%nat -> mget a i j = mget b i j) -> a = b.
Proof.
  intros Ha Hb Hc Hr H. destruct a as [ca ra], b as [cb rb]; cbn in *; subst cb. f_equal.
  unfold nrows in *; cbn in *. apply (nth_ext _ _ [] []); [exact Hr|]. intros i Hi.
  apply (nth_ext _ _ 0 0).
  - pose proof (mat_wf_row (Mat ca ra) i Ha Hi) as E1. pose proof (mat_wf_row (Mat ca rb) i Hb) as E2.
    unfold nrows in *; cbn in *. rewrite E1, E2; [reflexivity|lia].
  - pose proof (mat_wf_row (Mat ca ra) i Ha Hi) as E1. cbn in E1.
    intros j Hj. rewrite E1 in Hj. now apply (H i j).
Qed.

(** ** min / max of lists *)
Lemma rmax_list_ub l x y : y = x \/ In y l -> y <= rmax_list x l.
Proof.
  unfold rmax_list. revert x y; induction l as [|a l IH]; cbn; intros x y H.
  - destruct H as [->|[]]; lra.
  - destruct H as [->|[->|H]].
    + eapply Rle_trans; [apply (Rmax_l x a)|]. apply IH; now left.
    + eapply Rle_trans; [apply (Rmax_r x y)|]. apply IH; now left.
    + apply IH; now right.
Qed.

Lemma rmin_list_lb l x y : y = x \/ In y l -> rmin_list x l <= y.
Proof.
  unfold rmin_list. revert x y; induction l as [|a l IH]; cbn; intros x y H.
  - destruct H as [->|[]]; lra.
  - destruct H as [->|[->|H]].
    + eapply Rle_trans; [|apply (Rmin_l x a)]. apply IH; now left.
    + eapply Rle_trans; [|apply (Rmin_r x y)]. apply IH; now left.
    + apply IH; now right.
Qed.

Lemma rmax_list_in l x : In (rmax_list x l) (x :: l).
Proof.
  unfold rmax_list. revert x; induction l as [|a l IH]; cbn; intros x; [now left|].
  destruct (IH (Rmax x a)) as [E|E]; [|right; now right].
  rewrite <- E. unfold Rmax; destruct (Rle_dec x a); auto.
Qed.

Lemma rmin_list_in l x : In (rmin_list x l) (x :: l).
Proof.
  unfold rmin_list. revert x; induction l as [|a l IH]; cbn; intros x; [now left|].
  destruct (IH (Rmin x a)) as [E|E]; [|right; now right].
  rewrite <- E. unfold Rmin; destruct (Rle_dec x a); auto.
Qed.

(** the max/min is determined by membership and bound *)
Lemma rmax_list_unique x l m :
  In m (x :: l) -> (forall y, In y (x :: l) -> y <= m) -> rmax_list x l = m.
Proof.
  intros Hin Hub. apply Rle_antisym.
  - apply Hub, rmax_list_in.
  - apply rmax_list_ub. destruct Hin as [<-|H]; auto.
Qed.

Lemma rmin_list_unique x l m :
  In m (x :: l) -> (forall y, In y (x :: l) -> m <= y) -> rmin_list x l = m.
Proof.
  intros Hin Hub. apply Rle_antisym.
  - apply rmin_list_lb. destruct Hin as [<-|H]; auto.
  - apply Hub, rmin_list_in.
Qed.

Lemma Forall2_imp {A B} (P Q : A -> B -> Prop) l m :
  (forall a b, P a b -> Q a b) -> Forall2 P l m -> Forall2 Q l m.
Proof. intros H. induction 1; constructor; auto. Qed.

Lemma Forall2_len {A B} (P : A -> B -> Prop) l m : Forall2 P l m -> length l = length m.
Proof. induction 1; cbn; auto. Qed.
