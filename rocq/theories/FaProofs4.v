(** Activations of basis functions. *)
From Verif Require Import Base BaseLemmas ParamModel FaModel FaSpec FaProofs FaProofs2.

(** the activation of one basis function, recursively *)
Fixpoint kern (ex : R -> R) (x c w : list R) : R :=
  match x, c, w with
  | a :: x', b :: c', s :: w' => ex (- 0.5 * (a - b)^2 / (s * s)) * kern ex x' c' w'
  | _, _, _ => 1
  end.

Fixpoint prodn (n : nat) (f : nat -> R) : R := match n with O => 1 | S k => prodn k f * f k end.
Lemma prodn_shift n f : prodn (S n) f = f 0%nat * prodn n (fun i => f (S i)).
Proof. induction n as [|n IH]; [cbn; ring|]. change (prodn (S (S n)) f) with (prodn (S n) f * f (S n)). rewrite IH. cbn. ring. Qed.
Lemma prodn_ext n f g : (forall i, (i < n)%nat -> f i = g i) -> prodn n f = prodn n g.
Proof. induction n as [|n IH]; intros E; cbn; [reflexivity|]. rewrite IH, E by auto. reflexivity. Qed.
Lemma prodM_ok n f g : (forall i, (i < n)%nat -> f i = Ok (g i)) -> prodM n f = Ok (prodn n g).
Proof. induction n as [|n IH]; intros E; cbn; [reflexivity|]. rewrite IH, E by auto. reflexivity. Qed.
Lemma kern_prodn ex d : forall x c w, length x = d -> length c = d -> length w = d ->
  kern ex x c w = prodn d (fun k => ex (- 0.5 * (nth k x 0 - nth k c 0)^2 / (nth k w 0 * nth k w 0))).
Proof.
  induction d as [|d IH]; intros [|a x] [|b c] [|s w]; cbn [length]; try discriminate; intros Hx Hc Hw; [reflexivity|].
  rewrite prodn_shift. cbn [kern nth]. rewrite IH by lia. reflexivity.
Qed.

Lemma mget_row m i j : mget m i j = nth j (nth i (mrows m) []) 0. Proof. reflexivity. Qed.

Lemma activation_ok ex d x c w i b :
  mat_wf x -> mat_wf c -> mat_wf w -> mcols x = d -> mcols c = d -> mcols w = d ->
  (i < nrows x)%nat -> (b < nrows c)%nat -> nrows w = nrows c ->
  (forall k, (k < d)%nat -> mget w b k <> 0) ->
  activation ex d x c w i b = Ok (kern ex (nth i (mrows x) []) (nth b (mrows c) []) (nth b (mrows w) [])).
Proof.
  intros Wx Wc Ww Dx Dc Dw Hi Hb Hw N. unfold activation.
  rewrite (kern_prodn ex d).
  - apply prodM_ok. intros k Hk. unfold factor. destruct (Req_EM_T (mget w b k) 0) as [E|_]; [contradiction (N k Hk E)|].
    reflexivity.
  - rewrite <- Dx. now apply mat_wf_row.
  - rewrite <- Dc. now apply mat_wf_row.
  - rewrite <- Dw. apply mat_wf_row; [assumption|lia].
Qed.

Lemma concat_singletons (rows : list (list R)) : Forall (fun r => length r = 1%nat) rows -> map (fun x => [x]) (List.concat rows) = rows.
Proof.
  induction 1 as [|r rows Hr _ IH]; [reflexivity|]. destruct r as [|a [|]]; try discriminate. cbn. now rewrite IH.
Qed.
Lemma as_column_wf m : mat_wf m -> mcols m = 1%nat -> as_column (nrows m) (In2 m) = Ok m.
Proof.
  intros W E. unfold as_column. cbn [isize idata]. rewrite E, Nat.mul_1_r, Nat.eqb_refl.
  rewrite concat_singletons; [destruct m; cbn in E; now subst|]. unfold mat_wf in W. now rewrite E in W.
Qed.

Lemma activations_eq ex d x c w nb :
  mat_wf x -> mat_wf c -> mat_wf w -> mcols x = d -> mcols c = d -> mcols w = d -> nrows w = nrows c ->
  activations ex (In2 x) (In2 c) (In2 w) nb =
  if (nb && Nat.eqb (nrows c) 1)%bool then Ok (mtab (nrows x) 1 (fun _ _ => 1))
  else let* rows := mapM (fun i => mapM (activation ex d x c w i) (seq 0 (nrows c))) (seq 0 (nrows x)) in
       Ok (Mat (nrows c) (if nb then map normalize rows else rows)).
Proof.
  intros Wx Wc Ww Dx Dc Dw Hw. unfold activations. cbn [shape0]. rewrite Dc.
  assert (E : (if Nat.eqb d 1
     then let* c0 := as_column (nrows c) (In2 c) in let* w0 := as_column (nrows c) (In2 w) in
          let* x0 := as_column (nrows x) (In2 x) in Ok (c0, w0, x0)
     else Ok (c, w, x)) = Ok (c, w, x)).
  { destruct (Nat.eqb_spec d 1) as [->|]; [|reflexivity].
    rewrite as_column_wf by assumption. cbn [bind]. rewrite <- Hw at 1. rewrite as_column_wf by assumption.
    cbn [bind]. now rewrite as_column_wf. }
  rewrite E. cbn [bind]. destruct (nb && Nat.eqb (nrows c) 1)%bool; [reflexivity|].
  rewrite Hw, Dw, Dx, !Nat.ltb_irrefl. reflexivity.
Qed.

Section Values.
Variables (ex : R -> R) (d : nat) (X C W : list (list R)).
Hypothesis HX : Forall (fun r => length r = d) X.
Hypothesis HC : Forall (fun r => length r = d) C.
Hypothesis HW : Forall (fun r => length r = d) W.
Hypothesis HCW : length W = length C.
Hypothesis HN : Forall (fun r => Forall (fun s => s <> 0) r) W.

Definition raw (x : list R) : list R := map2 (fun c w => kern ex x c w) C W.
Definition row_of (nb : bool) (x : list R) : list R :=
  if nb then (if Nat.eqb (length C) 1 then [1] else normalize (raw x)) else raw x.

Lemma width_nonzero b k : (b < length C)%nat -> (k < d)%nat -> mget (Mat d W) b k <> 0.
Proof.
  intros Hb Hk. unfold mget. cbn. rewrite Forall_forall in HN, HW.
  assert (I : In (nth b W []) W) by (apply nth_In; lia).
  specialize (HN _ I). rewrite Forall_forall in HN. apply HN. apply nth_In. now rewrite HW.
Qed.
Lemma raw_seq x : raw x = map (fun b => kern ex x (nth b C []) (nth b W [])) (seq 0 (length C)).
Proof.
  apply (nth_ext _ _ 0 0); unfold raw.
  - rewrite map2_length, map_length, seq_length. lia.
  - intros b Hb. rewrite map2_length in Hb. rewrite nth_map_seq by lia.
    rewrite (nth_map2 _ C W b [] [] 0) by lia. reflexivity.
Qed.
Lemma activations_values nb :
  activations ex (In2 (Mat d X)) (In2 (Mat d C)) (In2 (Mat d W)) nb = Ok (Mat (length C) (map (row_of nb) X)).
Proof.
  rewrite (activations_eq ex d) by (try exact HX; try exact HC; try exact HW; try reflexivity; exact HCW).
  change (nrows (Mat d C)) with (length C). change (nrows (Mat d X)) with (length X).
  unfold row_of. destruct nb; cbn [andb].
  - destruct (Nat.eqb_spec (length C) 1) as [E|E].
    + rewrite E. f_equal. unfold mtab. f_equal. cbn [seq map].
      apply (nth_ext _ _ [] []); rewrite !map_length, seq_length; [reflexivity|].
      intros i Hi. rewrite nth_map_seq by assumption. now rewrite (nth_map_lt (fun _ => [1]) X i [] []).
    + rewrite (mapM_pure _ (fun i => raw (nth i X []))).
      * cbn [bind]. f_equal. f_equal. rewrite map_map.
        apply (nth_ext _ _ [] []); rewrite !map_length, seq_length; [reflexivity|].
        intros i Hi. rewrite nth_map_seq by assumption. now rewrite (nth_map_lt _ X i [] []).
      * intros i Hi. apply in_seq in Hi. rewrite raw_seq. apply mapM_pure. intros b Hb. apply in_seq in Hb.
        rewrite (activation_ok ex d); try assumption; try reflexivity; cbn in *; try lia.
        intros k Hk. apply width_nonzero; [lia|assumption].
  - rewrite (mapM_pure _ (fun i => raw (nth i X []))).
    + cbn [bind]. f_equal. f_equal.
      apply (nth_ext _ _ [] []); rewrite !map_length, seq_length; [reflexivity|].
      intros i Hi. rewrite nth_map_seq by assumption. now rewrite (nth_map_lt _ X i [] []).
    + intros i Hi. apply in_seq in Hi. rewrite raw_seq. apply mapM_pure. intros b Hb. apply in_seq in Hb.
      rewrite (activation_ok ex d); try assumption; try reflexivity; cbn in *; try lia.
      intros k Hk. apply width_nonzero; [lia|assumption].
Qed.
End Values.

(** ** bounds *)
Lemma neg_half a s : s <> 0 -> - 0.5 * a^2 / (s * s) <= 0.
Proof.
  intros N. assert (0 < s * s) by nra. assert (0 <= a^2 / (s * s)).
  { apply Rmult_le_pos; [apply pow2_ge_0|]. left. now apply Rinv_0_lt_compat. }
  unfold Rdiv in *. nra.
Qed.
Lemma kern_bounds ex : exp_like ex -> forall x c w, Forall (fun s => s <> 0) w -> 0 <= kern ex x c w <= 1.
Proof.
  intros [E0 E] x. induction x as [|a x IH]; intros [|b c] [|s w] N; cbn [kern]; try lra.
  inversion N; subst. specialize (IH c w H2). pose proof (E _ (neg_half (a - b) s H1)). nra.
Qed.
Lemma kern_center ex : exp_like ex -> forall x w, Forall (fun s => s <> 0) w -> kern ex x x w = 1.
Proof.
  intros [E0 E] x. induction x as [|a x IH]; intros [|s w] N; cbn [kern]; try reflexivity.
  inversion N; subst. rewrite IH by assumption.
  replace (- 0.5 * (a - a)^2 / (s * s)) with 0; [rewrite E0; ring|].
  replace (a - a) with 0 by ring. unfold Rdiv. cbn [pow]. ring.
Qed.
Lemma exp_exp_like : exp_like exp.
Proof.
  split; [apply exp_0|]. intros x Hx. split; [left; apply exp_pos|].
  rewrite <- exp_0. destruct Hx as [H|H]; [left; now apply exp_increasing|right; now rewrite H].
Qed.
Lemma kern_gaussian d : forall x c w, length x = d -> length c = d -> length w = d ->
  Forall (fun s => s <> 0) w -> kern exp x c w = gaussian c w x.
Proof.
  induction d as [|d IH]; intros [|a x] [|b c] [|s w]; cbn [length]; try discriminate; intros Hx Hc Hw N.
  - unfold gaussian. cbn. replace (- 0 / 2) with 0 by field. now rewrite exp_0.
  - inversion N; subst. cbn [kern]. rewrite IH by (try assumption; lia). unfold gaussian.
    rewrite <- exp_plus. f_equal. cbn [map2 rsum]. replace (-0.5) with (- / 2) by lra. field. assumption.
Qed.
Lemma gaussian_pos c w x : 0 < gaussian c w x. Proof. apply exp_pos. Qed.
Lemma kern_one_iff : forall x c w, length x = length c -> length w = length c -> Forall (fun s => s <> 0) w ->
  kern exp x c w = 1 -> x = c.
Proof.
  induction x as [|a x IH]; intros [|b c] [|s w]; cbn [length]; try discriminate; intros Hx Hw N; [reflexivity|].
  inversion N; subst. cbn [kern]. intros E.
  pose proof (kern_bounds exp exp_exp_like x c w H2) as [K0 K1].
  pose proof (neg_half (a - b) s H1) as L.
  assert (P : 0 < exp (- 0.5 * (a - b) ^ 2 / (s * s)) <= 1).
  { split; [apply exp_pos|]. now apply exp_exp_like. }
  assert (E1 : exp (- 0.5 * (a - b) ^ 2 / (s * s)) = 1) by nra.
  assert (E2 : kern exp x c w = 1) by nra.
  f_equal; [|apply (IH c w); auto].
  rewrite <- exp_0 in E1. apply exp_inv in E1.
  assert (Q : (a - b)^2 = 0).
  { assert (s * s <> 0) by nra. apply (Rmult_eq_reg_r (- 0.5 / (s * s))).
    - rewrite Rmult_0_l, <- E1. unfold Rdiv. ring.
    - intros Z. apply Rmult_integral in Z. destruct Z as [Z|Z]; [lra|]. now apply Rinv_neq_0_compat in Z. }
  nra.
Qed.

(** ** normalized rows *)
Lemma normalize_length row : length (normalize row) = length row.
Proof. unfold normalize. destruct Req_EM_T; now rewrite map_length. Qed.
Lemma normalize_sum row : row <> [] -> rsum (normalize row) = 1.
Proof.
  intros N. unfold normalize. destruct Req_EM_T.
  - rewrite rsum_const. assert (INR (length row) <> 0); [|field; assumption].
    apply not_0_INR. destruct row; [contradiction|discriminate].
  - rewrite rsum_div. field. assumption.
Qed.
Lemma normalize_nonneg row : Forall (fun a => 0 <= a) row -> Forall (fun a => 0 <= a) (normalize row).
Proof.
  intros N. assert (S0 : 0 <= rsum row) by (apply rsum_nonneg; now apply Forall_forall).
  unfold normalize. destruct Req_EM_T; apply Forall_map; apply Forall_forall; intros a Ha.
  - apply Rmult_le_pos; [lra|]. destruct row; [contradiction|]. left. apply Rinv_0_lt_compat, lt_0_INR. cbn; lia.
  - rewrite Forall_forall in N. apply Rmult_le_pos; [auto|]. left. apply Rinv_0_lt_compat. lra.
Qed.
Lemma raw_nonneg ex C W : exp_like ex -> Forall (fun r => Forall (fun s => s <> 0) r) W ->
  forall x, Forall (fun a => 0 <= a <= 1) (raw ex C W x).
Proof.
  intros E N x. unfold raw. revert W N. induction C as [|c C IH]; intros [|w W] N; cbn; constructor.
  - apply kern_bounds; [assumption|]. now inversion N.
  - apply IH. now inversion N.
Qed.
Lemma row_of_weights ex C W x : exp_like ex -> Forall (fun r => Forall (fun s => s <> 0) r) W ->
  length W = length C -> C <> [] ->
  length (row_of ex C W true x) = length C /\ Forall (fun a => 0 <= a) (row_of ex C W true x) /\
  rsum (row_of ex C W true x) = 1.
Proof.
  intros E N L NC. unfold row_of. destruct (Nat.eqb_spec (length C) 1) as [->|E1].
  - split; [reflexivity|]. split; [|cbn; ring]. constructor; [lra|constructor].
  - assert (Lr : length (raw ex C W x) = length C) by (unfold raw; rewrite map2_length; lia).
    split; [rewrite normalize_length; assumption|]. split.
    + apply normalize_nonneg. eapply Forall_impl; [|apply raw_nonneg; assumption]. intros a [Ha _]; exact Ha.
    + apply normalize_sum. intros Z. rewrite Z in Lr. destruct C; [contradiction|discriminate].
Qed.
