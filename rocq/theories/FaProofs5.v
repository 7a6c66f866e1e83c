(** Centers and widths: the odometer loop enumerates the grid. *)
From Verif Require Import Base BaseLemmas ParamModel FaModel FaSpec FaProofs FaProofs2 FaProofs4.

(** ** the odometer *)
Lemma carry_shift m ms x xs i : (1 <= i)%nat -> carry (m :: ms) (x :: xs) (S i) = x :: carry ms xs i.
Proof.
  intros H. destruct i as [|i]; [lia|]. unfold carry. cbn [nth].
  replace (S (S i) - 1)%nat with (S i) by lia. replace (S i - 1)%nat with i by lia.
  destruct (Nat.leb _ _); reflexivity.
Qed.
Lemma fold_carry_shift m ms x l : Forall (fun i => (1 <= i)%nat) l -> forall xs,
  fold_left (carry (m :: ms)) (map S l) (x :: xs) = x :: fold_left (carry ms) l xs.
Proof.
  induction 1 as [|i l Hi _ IH]; intros xs; [reflexivity|]. cbn [map fold_left].
  rewrite carry_shift by assumption. apply IH.
Qed.
Lemma rev_seq_shift k : rev (seq 1 (S k)) = map S (rev (seq 1 k)) ++ [1%nat].
Proof.
  replace (seq 1 (S k)) with (1%nat :: map S (seq 1 k)) by (now rewrite seq_shift).
  cbn [rev]. rewrite map_rev. reflexivity.
Qed.
Lemma increment_cons k m ms x xs : length xs = S k ->
  increment (S (S k)) (m :: ms) (x :: xs) =
  let xs' := increment (S k) ms xs in
  if Nat.leb (nth 0 ms 0%nat) (nth 0 xs' 0%nat) then S x :: set_nth xs' 0 0%nat else x :: xs'.
Proof.
  intros L. unfold increment. replace (S (S k) - 1)%nat with (S k) by lia. replace (S k - 1)%nat with k by lia.
  rewrite rev_seq_shift, fold_left_app. cbn [set_nth nth]. rewrite fold_carry_shift.
  - cbn [fold_left]. unfold carry at 1. cbn [nth]. destruct (Nat.leb _ _); reflexivity.
  - apply Forall_rev. apply Forall_forall. intros i Hi. apply in_seq in Hi. lia.
Qed.
Lemma increment_one m x : increment 1 [m] [x] = [S x]. Proof. reflexivity. Qed.

Definition valid (dmax d : list nat) : Prop := Forall2 lt d dmax.
Definition dgrid (dmax : list nat) : list (list nat) := grid (map (seq 0) dmax).
Fixpoint after (dmax d : list nat) : list (list nat) :=
  match dmax, d with
  | m :: ms, x :: xs => map (cons x) (after ms xs) ++
                        flat_map (fun c => map (cons c) (dgrid ms)) (seq (S x) (m - S x))
  | _, _ => [[]]
  end.
Definition zeros (n : nat) : list nat := repeat 0%nat n.

Lemma after_zeros dmax : Forall (fun m => (0 < m)%nat) dmax -> after dmax (zeros (length dmax)) = dgrid dmax.
Proof.
  induction 1 as [|m ms Hm _ IH]; [reflexivity|]. cbn [length zeros repeat after]. fold (zeros (length ms)).
  rewrite IH. unfold dgrid. cbn [map grid]. destruct m as [|m]; [lia|]. cbn [seq flat_map].
  replace (S m - 1)%nat with m by lia. reflexivity.
Qed.

Definition overflow (dmax d : list nat) : Prop :=
  match dmax with [] => False | m :: ms => d = m :: zeros (length ms) end.

Lemma increment_spec : forall dmax d, dmax <> [] -> Forall (fun m => (0 < m)%nat) dmax -> valid dmax d ->
  let d' := increment (length dmax) dmax d in
  (overflow dmax d' /\ after dmax d = [d]) \/ (valid dmax d' /\ after dmax d = d :: after dmax d').
Proof.
  induction dmax as [|m ms IH]; intros d NE P V; [contradiction|].
  inversion V as [|x m' xs ms' Hx Hxs]; subst. clear NE. inversion P as [|? ? Pm Pms]; subst.
  destruct ms as [|m1 ms].
  - inversion Hxs; subst. cbn [length]. rewrite increment_one. cbn zeta. cbn [after map app].
    destruct (Nat.eq_dec (S x) m) as [->|N].
    + left. split; [reflexivity|]. rewrite Nat.sub_diag. reflexivity.
    + right. split; [constructor; [lia|constructor]|].
      replace (m - S x)%nat with (S (m - S (S x))) by lia. reflexivity.
  - assert (Lx : length xs = length (m1 :: ms)) by (apply (Forall2_len _ _ _ Hxs)).
    cbn [length] in Lx |- *. rewrite increment_cons by assumption. cbn zeta. cbn [nth].
    assert (NE1 : m1 :: ms <> []) by discriminate.
    specialize (IH xs NE1 Pms Hxs). cbn zeta in IH. cbn [length] in IH.
    generalize dependent (increment (S (length ms)) (m1 :: ms) xs). intros xs' IH.
    destruct IH as [[O A]|[V' A]].
    + cbn [overflow] in O. rewrite O. cbn [nth]. rewrite Nat.leb_refl. cbn [set_nth].
      assert (Z : 0%nat :: zeros (length ms) = zeros (length (m1 :: ms))) by reflexivity.
      cbn [after] in *. rewrite A. cbn [map app].
      destruct (Nat.eq_dec (S x) m) as [->|N].
      * left. split; [cbn [overflow]; now rewrite Z|]. now rewrite Nat.sub_diag.
      * right. split.
        -- constructor; [lia|]. rewrite Z. clear -Pms. induction Pms; [constructor|]. constructor; assumption.
        -- f_equal. replace (m - S x)%nat with (S (m - S (S x))) by lia. cbn [seq flat_map]. f_equal.
           f_equal. symmetry. exact (after_zeros (m1 :: ms) Pms).
    + inversion V' as [|y m1' ys ms'' Hy Hys]; subst. cbn [nth].
      destruct (Nat.leb_spec m1 y); [lia|]. right. split.
      * constructor; [assumption|]. constructor; assumption.
      * change (after (m :: m1 :: ms) (x :: xs)) with
          (map (cons x) (after (m1 :: ms) xs) ++ flat_map (fun c => map (cons c) (dgrid (m1 :: ms))) (seq (S x) (m - S x))).
        rewrite A. reflexivity.
Qed.

(** the values picked by a digit vector *)
Definition pick (ls : list (list R)) (d : list nat) : list R := map2 (fun l i => nth i l 0) ls d.

Lemma map_flat_map {A B C} (f : B -> C) (g : A -> list B) l : map f (flat_map g l) = flat_map (fun x => map f (g x)) l.
Proof. induction l; cbn; [reflexivity|]. now rewrite map_app, IHl. Qed.
Lemma flat_map_map {A B C} (f : A -> B) (g : B -> list C) l : flat_map g (map f l) = flat_map (fun x => g (f x)) l.
Proof. induction l; cbn; [reflexivity|]. now rewrite IHl. Qed.

Lemma pick_grid ls : map (pick ls) (dgrid (map (@length R) ls)) = grid ls.
Proof.
  induction ls as [|l ls IH]; [reflexivity|]. unfold dgrid. cbn [map grid]. rewrite map_flat_map.
  rewrite <- IH.
  transitivity (flat_map (fun c => map (cons c) (map (pick ls) (dgrid (map (@length R) ls))))
                         (map (fun i => nth i l 0) (seq 0 (length l)))); [|now rewrite <- list_eq_map_nth].
  rewrite flat_map_map. apply flat_map_ext. intros i. unfold dgrid. rewrite !map_map. reflexivity.
Qed.
Lemma grid_length {A} (ls : list (list A)) : length (grid ls) = prod (map (@length A) ls).
Proof.
  induction ls as [|l ls IH]; [reflexivity|]. cbn [grid map prod fold_right]. fold (prod (map (@length A) ls)). rewrite <- IH.
  induction l as [|a l IHl]; [reflexivity|]. cbn [flat_map length]. rewrite app_length, map_length, IHl. reflexivity.
Qed.
Lemma dgrid_length dmax : length (dgrid dmax) = prod dmax.
Proof.
  unfold dgrid. rewrite grid_length, map_map. f_equal. rewrite <- (map_id dmax) at 2. apply map_ext.
  intros; apply seq_length.
Qed.

(** ** the loop *)
Definition fits (n : nat) (cw : list R * list R) : Prop := length (fst cw) = n /\ length (snd cw) = n.
Definition row_at (vals : list (list R * list R)) (d : list nat) : list R * list R :=
  (pick (map fst vals) d, pick (map snd vals) d).

Lemma pick_length ls d : length d = length ls -> length (pick ls d) = length ls.
Proof. intros H. unfold pick. rewrite map2_length. lia. Qed.
Lemma loop_row (f : list R * list R -> list R) vals dmax d :
  f ([], []) = [] -> Forall2 (fun cw n => length (f cw) = n) vals dmax -> valid dmax d ->
  mapM (fun i => nth_res (f (nth i vals ([], []))) (nth i d 0%nat)) (seq 0 (length dmax)) = Ok (pick (map f vals) d).
Proof.
  intros Hf HF V. pose proof (Forall2_len _ _ _ HF) as L1. pose proof (Forall2_len _ _ _ V) as L2.
  rewrite (mapM_pure _ (fun i => nth (nth i d 0%nat) (f (nth i vals ([], []))) 0)).
  - f_equal. apply (nth_ext _ _ 0 0); rewrite map_length, seq_length.
    + rewrite pick_length by (rewrite map_length; lia). rewrite map_length. lia.
    + intros i Hi. rewrite nth_map_seq by assumption. unfold pick.
      rewrite (nth_map2 _ (map f vals) d i [] 0%nat 0) by (rewrite ?map_length; lia).
      now rewrite (nth_map_lt f vals i ([], []) []) by lia.
  - intros i Hi. apply in_seq in Hi. apply nth_res_ok.
    assert (A : length (f (nth i vals ([], []))) = nth i dmax 0%nat).
    { clear -HF Hf. revert i. induction HF; intros [|i]; cbn; auto; now rewrite Hf. }
    rewrite A. clear -V Hi. assert (Hi' : (i < length dmax)%nat) by lia. clear Hi.
    revert i Hi'. induction V; intros [|i] H'; cbn in *; try lia. apply IHV. lia.
Qed.

Lemma grid_loop_spec vals dmax N : dmax <> [] -> Forall (fun m => (0 < m)%nat) dmax ->
  Forall2 (fun cw n => length (fst cw) = n) vals dmax -> Forall2 (fun cw n => length (snd cw) = n) vals dmax ->
  forall k d rows fuel, (length (after dmax d) <= k)%nat -> valid dmax d ->
  (length rows + length (after dmax d) <= N)%nat -> (k < fuel)%nat ->
  grid_loop fuel (length dmax) N dmax vals d rows = Ok (rows ++ map (row_at vals) (after dmax d)).
Proof.
  intros NE P F1 F2 k. induction k as [|k IH]; intros d rows fuel Hk V HN Hf.
  - destruct (increment_spec dmax d NE P V) as [[_ E]|[_ E]]; rewrite E in Hk; cbn in Hk; lia.
  - destruct fuel as [|fuel]; [lia|]. cbn [grid_loop].
    destruct dmax as [|m ms]; [contradiction|]. inversion V as [|x m' xs ms' Hx Hxs]; subst.
    change (nth_res (x :: xs) 0) with (Ok (A:=nat) x). cbn [bind].
    change (nth 0 (m :: ms) 0%nat) with m.
    destruct (Nat.ltb_spec x m) as [_|?]; [|lia].
    pose proof (increment_spec (m :: ms) (x :: xs) NE P V) as I. cbn zeta in I.
    assert (A1 : (length rows < N)%nat).
    { destruct I as [[_ E]|[_ E]]; rewrite E in HN; cbn [length] in HN; lia. }
    destruct (Nat.ltb_spec (length rows) N) as [_|?]; [|lia].
    rewrite (loop_row fst vals (m :: ms) (x :: xs) eq_refl F1 V). cbn [bind].
    rewrite (loop_row snd vals (m :: ms) (x :: xs) eq_refl F2 V). cbn [bind].
    fold (row_at vals (x :: xs)).
    set (d' := increment (length (m :: ms)) (m :: ms) (x :: xs)) in *.
    destruct I as [[O E]|[V' E]]; rewrite E in Hk, HN |- *.
    + destruct fuel as [|fuel]; [cbn [length] in *; lia|].
      cbn [overflow] in O. rewrite O. cbn [grid_loop].
      change (nth_res (m :: zeros (length ms)) 0) with (Ok (A:=nat) m). cbn [bind nth].
      rewrite Nat.ltb_irrefl. reflexivity.
    + rewrite IH; [|cbn [length] in Hk; lia|assumption|rewrite app_length; cbn [length] in *; lia|lia].
      cbn [map]. rewrite <- app_assoc. reflexivity.
Qed.

(** ** linspace *)
Lemma linspace_length a b n : length (linspace a b n) = n.
Proof. destruct n as [|[|n]]; [reflexivity..|]. unfold linspace. now rewrite map_length, seq_length. Qed.
Lemma linspace_equispaced a b n : equispaced a b n (linspace a b n).
Proof.
  split; [apply linspace_length|]. split.
  - intros i Hi. destruct n as [|[|n]]; [lia| |].
    + destruct i; [|lia]. cbn. unfold Rdiv. ring.
    + unfold linspace. rewrite nth_map_seq by assumption. replace (S (S n) - 1)%nat with (S n) by lia.
      field. apply not_0_INR. lia.
  - intros ->. reflexivity.
Qed.
Lemma linspace_diff a b n i : (S i < n)%nat ->
  nth (S i) (linspace a b n) 0 - nth i (linspace a b n) 0 = (b - a) / INR (n - 1).
Proof.
  intros H. destruct (linspace_equispaced a b n) as (_ & E & _). rewrite !E by lia. rewrite S_INR.
  field. apply not_0_INR. lia.
Qed.

(** ** widths *)
Lemma width_ok h x : 0 < h < 1 -> width h x = Ok (sqrt (x^2 / (- 8 * ln h))).
Proof.
  intros H. unfold width. destruct (Rlt_dec h 0); [lra|]. destruct (Req_EM_T h 0); [lra|].
  destruct (Rlt_dec h 1); [reflexivity|lra].
Qed.
Definition the_width (h delta : R) : R := Rabs delta / sqrt (- 8 * ln h).
Lemma ln_neg h : 0 < h < 1 -> 0 < - 8 * ln h.
Proof. intros H. assert (ln h < 0); [|lra]. rewrite <- ln_1. apply ln_increasing; lra. Qed.
Lemma the_width_eq h x : 0 < h < 1 -> sqrt (x^2 / (- 8 * ln h)) = the_width h x.
Proof.
  intros H. pose proof (ln_neg h H). unfold the_width. rewrite sqrt_div_alt by assumption.
  f_equal. rewrite <- sqrt_Rsqr_abs. f_equal. unfold Rsqr. ring.
Qed.
Lemma widths_ok h lo hi n : 0 < h < 1 ->
  widths_1d h (linspace lo hi n) =
  Ok (repeat (if Nat.leb n 1 then 1 else the_width h ((hi - lo) / INR (n - 1))) n).
Proof.
  intros H. unfold widths_1d. rewrite linspace_length. destruct n as [|[|n]]; [reflexivity..|].
  rewrite (mapM_pure _ (fun _ => the_width h ((hi - lo) / INR (S (S n) - 1)))).
  - cbn [bind Nat.leb]. f_equal. set (v := the_width _ _).
    assert (E : map (fun _ : nat => v) (seq 0 (S n)) = repeat v (S n)).
    { generalize (seq 0 (S n)) (seq_length (S n) 0). intros l <-. induction l; cbn; [reflexivity|]. now rewrite IHl. }
    rewrite E. rewrite (nth_indep _ 0 v), nth_repeat by (rewrite repeat_length; lia).
    clearbody v. symmetry. replace (S (S n)) with (S n + 1)%nat by lia. rewrite repeat_app. reflexivity.
  - intros i Hi. apply in_seq in Hi. rewrite linspace_diff by lia. rewrite width_ok by assumption.
    now rewrite the_width_eq.
Qed.

(** ** the ranges of the inputs *)
Lemma min_max_ok xs d dd : samples d xs -> exists lo hi, column_range xs dd lo hi /\
  min_val (In2 (Mat d xs)) dd = Ok lo /\ max_val (In2 (Mat d xs)) dd = Ok hi.
Proof.
  intros [NE _]. unfold min_val, max_val, column_of. cbn [mrows].
  destruct xs as [|x xs]; [contradiction|]. cbn [map].
  set (l := map (fun r => nth dd r 0) xs). exists (rmin_list (nth dd x 0) l), (rmax_list (nth dd x 0) l).
  split; [|split; reflexivity]. split; [|split].
  - apply rmin_list_in.
  - apply rmax_list_in.
  - apply Forall_forall. intros y Hy.
    assert (M : nth dd y 0 = nth dd x 0 \/ In (nth dd y 0) l).
    { destruct Hy as [->|Hy]; [now left|]. right. unfold l. apply in_map_iff. eauto. }
    split; [now apply rmin_list_lb|now apply rmax_list_ub].
Qed.
Lemma column_range_unique xs d lo hi lo' hi' : column_range xs d lo hi -> column_range xs d lo' hi' -> lo = lo' /\ hi = hi'.
Proof.
  intros (A & B & C) (A' & B' & C'). rewrite Forall_forall in C, C'.
  apply in_map_iff in A, B, A', B'. destruct A as (xa & <- & Ia), B as (xb & <- & Ib), A' as (xc & <- & Ic), B' as (xe & <- & Ie).
  pose proof (C _ Ia). pose proof (C _ Ib). pose proof (C _ Ic). pose proof (C _ Ie).
  pose proof (C' _ Ia). pose proof (C' _ Ib). pose proof (C' _ Ic). pose proof (C' _ Ie). lra.
Qed.

(** ** the result *)
Definition dim_width (h lo hi : R) (n : nat) : R := if Nat.leb n 1 then 1 else the_width h ((hi - lo) / INR (n - 1)).

Lemma nth_firstn {A} (l : list A) n i d : nth i (firstn n l) d = if Nat.ltb i n then nth i l d else d.
Proof.
  revert n l. induction i as [|i IH]; intros [|n] [|x l]; try reflexivity.
  - cbn [firstn nth]. destruct (S i <? S n)%nat; reflexivity.
  - exact (IH n l).
Qed.
(** Numbers of basis functions beyond the dimensions of the inputs only change the number of rows. *)
Lemma increment_firstn d dmax digit : (0 < d)%nat -> increment d (firstn d dmax) digit = increment d dmax digit.
Proof.
  intros D. unfold increment.
  assert (G : forall l dg, Forall (fun i => (i < d)%nat) l -> fold_left (carry (firstn d dmax)) l dg = fold_left (carry dmax) l dg).
  { induction l as [|i l IH]; intros dg F; [reflexivity|]. inversion F; subst. cbn [fold_left]. rewrite IH by assumption. f_equal.
    unfold carry. rewrite nth_firstn. destruct (Nat.ltb_spec i d); [reflexivity|lia]. }
  apply G. apply Forall_rev. apply Forall_forall. intros i Hi. apply in_seq in Hi. lia.
Qed.
Lemma grid_loop_firstn d N dmax vals : (0 < d)%nat -> forall fuel digit rows,
  grid_loop fuel d N (firstn d dmax) vals digit rows = grid_loop fuel d N dmax vals digit rows.
Proof.
  intros D. induction fuel as [|fuel IH]; intros digit rows; [reflexivity|]. cbn [grid_loop].
  destruct (nth_res digit 0); [|reflexivity]. cbn [bind]. rewrite nth_firstn. destruct (Nat.ltb_spec 0 d); [|lia].
  destruct (Nat.ltb _ _); [|reflexivity]. destruct (Nat.ltb _ _); [|reflexivity].
  destruct (mapM _ _); [|reflexivity]. cbn [bind]. destruct (mapM _ _); [|reflexivity]. cbn [bind].
  rewrite increment_firstn by assumption. apply IH.
Qed.
Lemma prod_firstn d ns : Forall (fun n => (0 < n)%nat) ns -> (prod (firstn d ns) <= prod ns)%nat.
Proof.
  unfold prod. intros P. revert d. induction P as [|n ns Hn P IH]; intros [|d]; cbn; try lia.
  - assert (0 < fold_right Nat.mul 1 ns)%nat.
    { clear -P. induction P; cbn; [lia|]. apply Nat.mul_pos_pos; assumption. }
    nia.
  - apply Nat.mul_le_mono_l. apply IH.
Qed.
Lemma all_centers_and_widths d xs ns h : samples d xs -> (0 < d)%nat -> (d <= length ns)%nat ->
  Forall (fun n => (0 < n)%nat) ns -> 0 < h < 1 ->
  exists los his,
    (forall dd, (dd < d)%nat -> column_range xs dd (nth dd los 0) (nth dd his 0)) /\
    get_centers_and_widths (In2 (Mat d xs)) ns h =
    Ok (Mat d (grid (map (fun dd => linspace (nth dd los 0) (nth dd his 0) (nth dd ns 0%nat)) (seq 0 d))
               ++ repeat (repeat 0 d) (prod ns - prod (firstn d ns))),
        Mat d (grid (map (fun dd => repeat (dim_width h (nth dd los 0) (nth dd his 0) (nth dd ns 0%nat)) (nth dd ns 0%nat)) (seq 0 d))
               ++ repeat (repeat 0 d) (prod ns - prod (firstn d ns)))).
Proof.
  intros S D L P H.
  assert (EX : exists los his, forall dd, (dd < d)%nat ->
    column_range xs dd (nth dd los 0) (nth dd his 0) /\
    min_val (In2 (Mat d xs)) dd = Ok (nth dd los 0) /\ max_val (In2 (Mat d xs)) dd = Ok (nth dd his 0)).
  { clear -S. generalize d at 1. intros k. induction k as [|k (los & his & IH)]; [exists [], []; intros; lia|].
    destruct (min_max_ok xs d k S) as (lo & hi & E).
    exists (map (fun i => if Nat.eqb i k then lo else nth i los 0) (seq 0 (Datatypes.S k))),
           (map (fun i => if Nat.eqb i k then hi else nth i his 0) (seq 0 (Datatypes.S k))).
    intros dd Hdd. rewrite !nth_map_seq by assumption. destruct (Nat.eqb_spec dd k) as [->|]; [exact E|].
    apply IH. lia. }
  destruct EX as (los & his & EX). exists los, his. split; [intros dd Hdd; now apply EX|].
  unfold get_centers_and_widths. cbn [n_dims_of shape0 mcols].
  assert (NZ : nrows (Mat d xs) <> 0%nat).
  { destruct S as [NE _]. unfold nrows. cbn. destruct xs; [contradiction|discriminate]. }
  destruct (Nat.eqb_spec (nrows (Mat d xs)) 0); [contradiction|]. clear NZ.
  unfold bfs_per_dim. destruct (Nat.ltb_spec (length ns) d); [lia|]. cbn [bind].
  set (vf := fun dd => (linspace (nth dd los 0) (nth dd his 0) (nth dd ns 0%nat),
                        repeat (dim_width h (nth dd los 0) (nth dd his 0) (nth dd ns 0%nat)) (nth dd ns 0%nat))).
  rewrite (mapM_pure _ vf).
  2: { intros dd Hdd. apply in_seq in Hdd. destruct (EX dd) as (_ & -> & ->); [lia|]. cbn [bind].
       rewrite widths_ok by assumption. reflexivity. }
  cbn [bind]. set (vals := map vf (seq 0 d)).
  set (N := prod ns).
  assert (HN : (prod (firstn d ns) <= N)%nat) by now apply prod_firstn.
  assert (LF : length (firstn d ns) = d) by (apply firstn_length_le; assumption).
  assert (VF : forall dd, (dd < d)%nat -> nth dd ns 0%nat = nth dd (firstn d ns) 0%nat).
  { intros dd Hdd. rewrite nth_firstn. destruct (Nat.ltb_spec dd d); [reflexivity|lia]. }
  rewrite <- grid_loop_firstn by assumption.
  assert (PF : Forall (fun n => (0 < n)%nat) (firstn d ns)).
  { rewrite <- (firstn_skipn d ns) in P. apply Forall_app in P. apply P. }
  set (ms := firstn d ns) in *.
  assert (NE : ms <> []) by (intros E; rewrite E in LF; cbn in LF; lia).
  assert (F : forall f : list R * list R -> list R, (forall dd, length (f (vf dd)) = nth dd ns 0%nat) ->
              Forall2 (fun cw n => length (f cw) = n) vals ms).
  { intros f Hf. unfold vals. rewrite (list_eq_map_nth 0%nat ms), LF.
    assert (Q : Forall (fun dd => (dd < d)%nat) (seq 0 d)) by (apply Forall_forall; intros q Hq; apply in_seq in Hq; lia).
    induction Q; cbn; constructor; auto. rewrite Hf. now apply VF. }
  assert (F1 := F fst (fun dd => linspace_length _ _ _)).
  assert (F2 := F snd (fun dd => repeat_length _ _)).
  assert (V0 : valid ms (repeat 0%nat d)).
  { rewrite <- LF. clear -PF. induction PF; [constructor|]. constructor; assumption. }
  assert (A0 : after ms (repeat 0%nat d) = dgrid ms) by (rewrite <- LF; now apply after_zeros).
  assert (GL : forall fuel, (prod ms < fuel)%nat -> grid_loop fuel d N ms vals (repeat 0%nat d) [] =
               Ok ([] ++ map (row_at vals) (after ms (repeat 0%nat d)))).
  { intros fuel Hfu. replace d with (length ms) at 1.
    apply (grid_loop_spec vals ms N NE PF F1 F2 (prod ms)); try assumption; rewrite A0, dgrid_length; cbn; lia. }
  rewrite GL by lia. cbn [bind app]. rewrite A0, !map_length, dgrid_length.
  rewrite !map_map. cbn [row_at fst snd].
  assert (G : forall f : list R * list R -> list R, (forall dd, length (f (vf dd)) = nth dd ns 0%nat) ->
    map (fun d0 => pick (map f vals) d0) (dgrid ms) = grid (map (fun dd => f (vf dd)) (seq 0 d))).
  { intros f Hf. unfold vals. rewrite map_map.
    rewrite <- (pick_grid (map (fun dd => f (vf dd)) (seq 0 d))). f_equal. f_equal.
    rewrite map_map. rewrite (list_eq_map_nth 0%nat ms), LF. apply map_ext_in. intros q Hq. apply in_seq in Hq.
    rewrite Hf. symmetry. apply VF. lia. }
  rewrite (G fst (fun dd => linspace_length _ _ _)), (G snd (fun dd => repeat_length _ _)). reflexivity.
Qed.
Lemma centers_and_widths d xs ns h : samples d xs -> (0 < d)%nat -> length ns = d ->
  Forall (fun n => (0 < n)%nat) ns -> 0 < h < 1 ->
  exists los his,
    (forall dd, (dd < d)%nat -> column_range xs dd (nth dd los 0) (nth dd his 0)) /\
    get_centers_and_widths (In2 (Mat d xs)) ns h =
    Ok (Mat d (grid (map (fun dd => linspace (nth dd los 0) (nth dd his 0) (nth dd ns 0%nat)) (seq 0 d))),
        Mat d (grid (map (fun dd => repeat (dim_width h (nth dd los 0) (nth dd his 0) (nth dd ns 0%nat)) (nth dd ns 0%nat)) (seq 0 d)))).
Proof.
  intros S D L P H. destruct (all_centers_and_widths d xs ns h S D ltac:(lia) P H) as (los & his & R & E).
  exists los, his. split; [exact R|]. rewrite E, <- L, firstn_all, Nat.sub_diag. cbn [repeat]. now rewrite !app_nil_r.
Qed.

(** one number of basis functions for all dimensions *)
Lemma scalar_n d xs n h : (0 < d)%nat ->
  get_centers_and_widths (In2 (Mat d xs)) [n] h = get_centers_and_widths (In2 (Mat d xs)) (repeat n d) h.
Proof.
  intros D. unfold get_centers_and_widths, bfs_per_dim. cbn [n_dims_of mcols length].
  rewrite repeat_length, Nat.ltb_irrefl. destruct (Nat.ltb_spec 1 d); [reflexivity|].
  replace d with 1%nat by lia. reflexivity.
Qed.
(** too few numbers *)
Lemma too_few d xs ns h : xs <> [] -> (length ns < d)%nat -> length ns <> 1%nat ->
  get_centers_and_widths (In2 (Mat d xs)) ns h = Err ValueError.
Proof.
  intros N L1 L2. unfold get_centers_and_widths, bfs_per_dim. cbn [n_dims_of mcols shape0].
  destruct (Nat.eqb_spec (nrows (Mat d xs)) 0) as [|_]; [reflexivity|].
  destruct (Nat.ltb_spec (length ns) d); [|lia]. destruct ns as [|n [|]]; cbn in L2; try lia; reflexivity.
Qed.
(** a vector of inputs *)
Lemma vector_inputs xs ns h :
  get_centers_and_widths (In1 xs) ns h = get_centers_and_widths (In2 (Mat 1 (map (fun x => [x]) xs))) ns h.
Proof.
  unfold get_centers_and_widths. cbn [n_dims_of mcols shape0]. unfold nrows. cbn [mrows]. rewrite map_length.
  destruct (Nat.eqb _ _); [reflexivity|]. destruct (bfs_per_dim 1 ns); [|reflexivity]. cbn [bind seq].
  assert (E : column_of (In1 xs) 0 = column_of (In2 (Mat 1 (map (fun x => [x]) xs))) 0).
  { cbn [column_of mrows]. rewrite map_map. symmetry. apply map_id. }
  cbn [mapM]. unfold min_val, max_val. rewrite E. reflexivity.
Qed.
