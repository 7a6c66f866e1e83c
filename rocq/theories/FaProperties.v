(** The properties of the function approximators: C64-C72, C86. See FaSpec.v for the vocabulary.
    [train f fn inputs] and [predict f fn inputs] are FunctionApproximator.train and predict with the
    _train and _predict of a subclass; [Mat d xs] is the matrix with rows xs of length d. *)
From Coq Require Import String.
From Verif Require Import Base BaseLemmas ParamModel FaModel FaSpec FaProofs FaProofs2 FaProofs3 FaProofs4 FaProofs5 FaProofs6 FaProofs7 FaProofs8 FaProofs9 FaProofs10 FaProofs11 FaProofs12 FaProofs13 FaProofs14 FaProofs15 FaExamples.
Open Scope list_scope.
Open Scope R_scope.

(** ** C64 *)
(** for every exponential, underflow included *)
Theorem C64_kernels : forall ex d X C W nb, exp_like ex ->
  Forall (fun r => length r = d) X -> Forall (fun r => length r = d) C -> Forall (fun r => length r = d) W ->
  length W = length C -> C <> [] -> Forall (fun r => Forall (fun s => s <> 0) r) W ->
  exists A, activations ex (In2 (Mat d X)) (In2 (Mat d C)) (In2 (Mat d W)) nb = Ok (Mat (length C) A) /\
    length A = length X /\ Forall (fun row => length row = length C) A /\
    (nb = false -> Forall (Forall (fun a => 0 <= a <= 1)) A /\
       forall i b, (i < length X)%nat -> (b < length C)%nat -> nth i X [] = nth b C [] -> nth b (nth i A []) 0 = 1) /\
    (nb = true -> Forall (fun row => Forall (fun a => 0 <= a) row /\ rsum row = 1) A).
Proof. exact activations_kernel. Qed.
Print Assumptions C64_kernels.
(** for the exponential function itself *)
Theorem C64_values : forall d X C W,
  Forall (fun r => length r = d) X -> Forall (fun r => length r = d) C -> Forall (fun r => length r = d) W ->
  length W = length C -> C <> [] -> Forall (fun r => Forall (fun s => s <> 0) r) W ->
  activations exp (In2 (Mat d X)) (In2 (Mat d C)) (In2 (Mat d W)) false = Ok (Mat (length C) (map (gaussians C W) X)) /\
  activations exp (In2 (Mat d X)) (In2 (Mat d C)) (In2 (Mat d W)) true = Ok (Mat (length C) (map (shares C W) X)).
Proof. exact activations_gaussians. Qed.
Print Assumptions C64_values.
Theorem C64_range : forall c w x, length x = length c -> length w = length c -> Forall (fun s => s <> 0) w ->
  0 < gaussian c w x <= 1 /\ (gaussian c w x = 1 <-> x = c).
Proof. exact gaussian_range. Qed.
Print Assumptions C64_range.
Theorem C64_vectors : forall ex xs cs ws nb, length ws = length cs ->
  activations ex (In1 xs) (In1 cs) (In1 ws) nb = activations ex (In2 (column xs)) (In2 (column cs)) (In2 (column ws)) nb.
Proof. exact activations_vectors. Qed.
Print Assumptions C64_vectors.
Example C64_case : exp_like (fun x => if Rlt_dec x (-700) then 0 else if Rle_dec x 0 then exp x else 1) /\ exp_like exp /\
  Forall (fun r => Forall (fun s => s <> 0) r) [[1; 2]; [0.5; 3]].
Proof.
  split; [|split; [exact exp_exp_like|repeat constructor; lra]]. split.
  - destruct (Rlt_dec 0 (-700)); [lra|]. destruct (Rle_dec 0 0); [apply exp_0|lra].
  - intros x Hx. destruct (Rlt_dec x (-700)); [lra|]. destruct (Rle_dec x 0); [|lra]. apply exp_exp_like. assumption.
Qed.

(** ** C65. Full statement: the centers are the grid, and a wrong number of numbers of basis functions
    raises ValueError. The latter is false: too many are accepted (refuted below). *)
Theorem C65_grid : forall d xs ns h, samples d xs -> (0 < d)%nat -> per_dim d ns -> 0 < h < 1 ->
  exists axes W, get_centers_and_widths (In2 (Mat d xs)) ns h = Ok (Mat d (grid axes), Mat d W) /\
    length axes = d /\
    (forall k, (k < d)%nat -> exists lo hi, column_range xs k lo hi /\ equispaced lo hi (nth k ns 0%nat) (nth k axes [])) /\
    length (grid axes) = prod ns /\ length W = prod ns /\ Forall (fun r => length r = d) W /\
    (spread d xs ns -> NoDup (grid axes)).
Proof. exact center_grid. Qed.
Print Assumptions C65_grid.
Theorem C65_one_number : forall d xs n h, (0 < d)%nat ->
  get_centers_and_widths (In2 (Mat d xs)) [n] h = get_centers_and_widths (In2 (Mat d xs)) (repeat n d) h.
Proof. exact scalar_n. Qed.
Print Assumptions C65_one_number.
Theorem C65_too_few_partial : forall d xs ns h, xs <> [] -> (length ns < d)%nat -> length ns <> 1%nat ->
  get_centers_and_widths (In2 (Mat d xs)) ns h = Err ValueError.
Proof. exact too_few. Qed.
Print Assumptions C65_too_few_partial.
(** for too many, rows of zeros are added *)
Theorem C65_too_many : forall d xs ns h, samples d xs -> (0 < d)%nat -> (d <= length ns)%nat ->
  Forall (fun n => (0 < n)%nat) ns -> 0 < h < 1 ->
  exists C W, get_centers_and_widths (In2 (Mat d xs)) (firstn d ns) h = Ok (Mat d C, Mat d W) /\
    get_centers_and_widths (In2 (Mat d xs)) ns h =
      Ok (Mat d (C ++ repeat (repeat 0 d) (prod ns - prod (firstn d ns))),
          Mat d (W ++ repeat (repeat 0 d) (prod ns - prod (firstn d ns)))).
Proof. exact extra_numbers. Qed.
Print Assumptions C65_too_many.
Theorem C65_too_many_refuted : exists d xs ns h r, samples d xs /\ (0 < d)%nat /\ 0 < h < 1 /\
  (d < length ns)%nat /\ get_centers_and_widths (In2 (Mat d xs)) ns h = Ok r.
Proof.
  destruct (extra_numbers 2 sq [2; 2; 3]%nat 0.5 sq_samples) as (C & W & _ & E); [lia|cbn; lia|repeat constructor|lra|].
  exists 2%nat, sq, [2; 2; 3]%nat, 0.5. eexists. split; [exact sq_samples|]. split; [lia|]. split; [lra|]. split; [cbn; lia|exact E].
Qed.
Print Assumptions C65_too_many_refuted.
Theorem C65_vectors : forall xs ns h, get_centers_and_widths (In1 xs) ns h = get_centers_and_widths (In2 (column xs)) ns h.
Proof. exact vector_inputs. Qed.
Print Assumptions C65_vectors.
Example C65_case : samples 2 sq /\ per_dim 2 [2; 3]%nat /\ spread 2 sq [2; 3]%nat /\
  grid [[0; 1]; [0; 0.5; 1]] = [[0; 0]; [0; 0.5]; [0; 1]; [1; 0]; [1; 0.5]; [1; 1]].
Proof.
  split; [exact sq_samples|]. split; [split; [reflexivity|repeat constructor]|]. split; [|reflexivity].
  intros k Hk. destruct (gd_spread _ _ _ _ _ sq_grid k Hk) as [E|E]; [|now right]. destruct k as [|[|k]]; [discriminate|discriminate|lia].
Qed.

(** ** C66 *)
Theorem C66_height : forall d xs ns h C W, samples d xs -> (0 < d)%nat -> per_dim d ns -> spread d xs ns -> 0 < h < 1 ->
  get_centers_and_widths (In2 (Mat d xs)) ns h = Ok (Mat d C, Mat d W) ->
  forall k a b wa wb, (k < d)%nat -> In (a, wa) (combine C W) -> In (b, wb) (combine C W) -> neighbours C k a b ->
  gaussian a wa (midpoint a b) = h /\ gaussian b wb (midpoint a b) = h.
Proof. exact neighbour_height. Qed.
Print Assumptions C66_height.
(** finding: several basis functions in a dimension in which the inputs are equal have width 0, and
    the activations are nan *)
Theorem C66_constant_inputs : forall ex d xs ns h, samples d xs -> (0 < d)%nat -> per_dim d ns -> 0 < h < 1 -> ~ spread d xs ns ->
  exists C W, get_centers_and_widths (In2 (Mat d xs)) ns h = Ok (Mat d C, Mat d W) /\
  Forall (fun r => length r = d) C /\ Forall (fun r => length r = d) W /\
  forall nb, activations ex (In2 (Mat d xs)) (In2 (Mat d C)) (In2 (Mat d W)) nb = Err NonFinite.
Proof. exact constant_activations. Qed.
Print Assumptions C66_constant_inputs.
Example C66_case : exists C W wa wb, get_centers_and_widths (In2 (Mat 1 two)) [2%nat] 0.5 = Ok (Mat 1 C, Mat 1 W) /\
  In ([0], wa) (combine C W) /\ In ([1], wb) (combine C W) /\ neighbours C 0 [0] [1] /\ midpoint [0] [1] = [0.5].
Proof.
  pose proof (two_grid 2 ltac:(lia)) as G.
  destruct (center_grid 1 two [2%nat] 0.5 two_samples ltac:(lia) (gd_ns _ _ _ _ _ G) ltac:(lra)) as (axes & W & E & La & Ax & _ & LW & _).
  destruct axes as [|a [|]]; try discriminate. destruct (Ax 0%nat ltac:(lia)) as (lo & hi & (I1 & I2 & F) & (Le & Q & _)). cbn in I1, I2, Le, Q.
  inversion F as [|? ? F1 F']; subst. inversion F' as [|? ? F2 _]; subst. cbn in F1, F2.
  assert (lo = 0) by (destruct I1 as [?|[?|[]]]; lra). assert (hi = 1) by (destruct I2 as [?|[?|[]]]; lra). subst lo hi.
  destruct a as [|p [|q [|]]]; try discriminate. pose proof (Q 0%nat ltac:(lia)) as Q0. pose proof (Q 1%nat ltac:(lia)) as Q1. cbn in Q0, Q1.
  assert (P0 : p = 0) by lra. assert (P1 : q = 1) by lra. clear Q0 Q1 Q. subst p q. destruct W as [|w1 [|w2 [|]]]; try discriminate.
  exists (grid [[0; 1]]), [w1; w2], w1, w2. split; [exact E|]. cbn [grid flat_map map combine app].
  split; [now left|]. split; [right; now left|]. split; [|unfold midpoint; cbn; f_equal; lra].
  split; [now left|]. split; [right; now left|]. split; [intros [|k] Hk; [lia|]; destruct k; reflexivity|]. split; [cbn; lra|].
  intros c [<-|[<-|[]]]; cbn; lra.
Qed.

(** ** C67. Full statement: as below; with targets in a matrix with one column, as scikit-learn gives
    them, prediction fails for inputs with several dimensions. *)
Theorem C67_best : forall u lam w d xs ys t f f', weighted_data d xs ys (weights_or_ones w (length xs)) -> 0 <= lam -> targets_are t ys ->
  train f (wls_train u lam w t) (In2 (Mat d xs)) = (f', Ok tt) ->
  exists s o, best u d xs ys (weights_or_ones w (length xs)) lam s o /\
    forall X, X <> [] -> Forall (fun r => length r = d) X ->
      predict f' wls_predict (In2 (Mat d X)) =
      match t with
      | In1 _ => Ok (In1 (map (affine s o) X))
      | In2 _ => if Nat.eqb d 1 then Ok (In2 (column (map (affine s o) X))) else Err ValueError
      end.
Proof. intros u lam w d xs ys t f f' H1 H2 H3. exact (wls_best u lam w d xs ys t H1 H2 H3 f f'). Qed.
Print Assumptions C67_best.
(** training succeeds exactly if there is a unique best model *)
Theorem C67_success : forall u lam w d xs ys t f, weighted_data d xs ys (weights_or_ones w (length xs)) -> 0 <= lam -> targets_are t ys ->
  (is_ok (snd (train f (wls_train u lam w t) (In2 (Mat d xs)))) <-> 0 < lam \/ determined u d xs (weights_or_ones w (length xs))) /\
  (forall f' e, train f (wls_train u lam w t) (In2 (Mat d xs)) = (f', Err e) -> e = LinAlgError).
Proof. intros u lam w d xs ys t f H1 H2 H3. exact (wls_succeeds u lam w d xs ys t H1 H2 H3 f). Qed.
Print Assumptions C67_success.
Theorem C67_exact : forall u w d xs ys f f' s o, weighted_data d xs ys (weights_or_ones w (length xs)) ->
  length s = d -> (u = false -> o = 0) -> (forall i, (i < length xs)%nat -> nth i ys 0 = affine s o (nth i xs [])) ->
  train f (wls_train u 0 w (In1 ys)) (In2 (Mat d xs)) = (f', Ok tt) ->
  forall X, X <> [] -> Forall (fun r => length r = d) X ->
    predict f' wls_predict (In2 (Mat d X)) = Ok (In1 (map (affine s o) X)).
Proof.
  intros u w d xs ys f f' s o HD Ls Lo Hy E X NX HX.
  destruct (wls_best u 0 w d xs ys (In1 ys) HD (Rle_refl 0) (or_introl eq_refl) f f' E) as (s1 & o1 & B & P).
  destruct HD as (_ & _ & Lw & Fw). destruct (best_exact u d xs ys _ s1 o1 s o Fw Lw B Ls Lo Hy) as [-> ->]. now apply P.
Qed.
Print Assumptions C67_exact.
Theorem C67_column_targets_refuted : exists f', train no_fa (wls_train true 0 None (In2 (column sqy))) (In2 (Mat 2 sq)) = (f', Ok tt) /\
  predict f' wls_predict (In2 (Mat 2 sq)) = Err ValueError.
Proof.
  assert (HD : weighted_data 2 sq sqy (ones 4)) by (split; [exact sq_samples|]; repeat split; try reflexivity; repeat constructor; lra).
  destruct (wls_succeeds true 0 None 2 sq sqy (In2 (column sqy)) HD (Rle_refl 0) (or_intror eq_refl) no_fa) as [[_ Sc] _].
  destruct (is_ok_train _ _ _ (Sc (or_intror sq_det))) as [f' E]. exists f'. split; [exact E|].
  destruct (wls_best true 0 None 2 sq sqy (In2 (column sqy)) HD (Rle_refl 0) (or_intror eq_refl) no_fa f' E) as (s & o & _ & P).
  apply P; [discriminate|repeat constructor].
Qed.
Print Assumptions C67_column_targets_refuted.
Example C67_case : weighted_data 2 sq sqy (weights_or_ones (Some [1; 2; 0.5; 0]) 4) /\
  determined true 2 sq [1; 2; 0.5; 0] /\ best true 1 two [0; 1] (ones 2) 0 [1] 0.
Proof.
  split; [split; [exact sq_samples|]; repeat split; try reflexivity; repeat constructor; lra|]. split; [|exact two_line_0].
  intros s o L Ho H. apply sq_det; try assumption. intros i Hi Pi. destruct s as [|a [|b [|]]]; try discriminate.
  pose proof (H 0%nat ltac:(cbn; lia) ltac:(cbn; lra)) as H0. pose proof (H 1%nat ltac:(cbn; lia) ltac:(cbn; lra)) as H1.
  pose proof (H 2%nat ltac:(cbn; lia) ltac:(cbn; lra)) as H2. unfold affine, dot in *. cbn in *.
  destruct i as [|[|[|[|i]]]]; cbn; try lra. lia.
Qed.

(** ** C68 *)
Theorem C68_model : forall d xs ys ns h lam t f f', grid_data d xs ys ns h -> targets_are t ys -> t = In1 ys \/ d = 1%nat ->
  train f (lwr_train exp ns h lam t) (In2 (Mat d xs)) = (f', Ok tt) ->
  exists C W lines, get_centers_and_widths (In2 (Mat d xs)) ns h = Ok (Mat d C, Mat d W) /\
    length lines = prod ns /\ length C = prod ns /\ length W = prod ns /\
    (forall k, (k < prod ns)%nat ->
       best true d xs ys (map (fun x => nth k (shares C W x) 0) xs) 0 (fst (nth k lines ([], 0))) (snd (nth k lines ([], 0)))) /\
    forall X, X <> [] -> Forall (fun r => length r = d) X ->
      predict f' (lwr_predict exp) (In2 (Mat d X)) = Ok (map (lwr_sum C W lines) X).
Proof. intros d xs ys ns h lam t f f' H1 H2 H3. exact (lwr_model d xs ys ns h lam t H1 H2 H3 f f'). Qed.
Print Assumptions C68_model.
Theorem C68_success : forall d xs ys ns h lam t f, grid_data d xs ys ns h -> targets_are t ys -> t = In1 ys \/ d = 1%nat ->
  (is_ok (snd (train f (lwr_train exp ns h lam t) (In2 (Mat d xs)))) <-> determined true d xs (ones (length xs))) /\
  (forall f' e, train f (lwr_train exp ns h lam t) (In2 (Mat d xs)) = (f', Err e) -> e = LinAlgError).
Proof. intros d xs ys ns h lam t f H1 H2 H3. exact (lwr_succeeds d xs ys ns h lam t H1 H2 H3 f). Qed.
Print Assumptions C68_success.
(** between the smallest and the largest line, for every exponential, underflow included *)
Theorem C68_bounds : forall ex d C W lines X ys lo hi i, exp_like ex ->
  Forall (fun r => length r = d) C -> Forall (fun r => length r = d) W -> length W = length C -> C <> [] ->
  Forall (fun r => Forall (fun s => s <> 0) r) W ->
  length lines = length C -> Forall (fun l => length (fst l) = d) lines -> Forall (fun r => length r = d) X ->
  lwr_predict ex [("centers"%string, PArr (mat_arr (Mat d C))); ("widths"%string, PArr (mat_arr (Mat d W)));
                  ("offsets"%string, PArr (Arr [length C; 1%nat] (map snd lines)));
                  ("slopes"%string, PArr (Arr [length C; d] (List.concat (map fst lines))))] (Mat d X) = Ok ys ->
  (i < length X)%nat -> Forall (fun v => lo <= v <= hi) (line_values lines (nth i X [])) -> lo <= nth i ys 0 <= hi.
Proof. exact lwr_bounds. Qed.
Print Assumptions C68_bounds.
Theorem C68_equal_lines : forall C W lines x v, length lines = length C -> length W = length C -> C <> [] ->
  Forall (fun l => affine (fst l) (snd l) x = v) lines -> lwr_sum C W lines x = v.
Proof. exact lwr_sum_equal. Qed.
Print Assumptions C68_equal_lines.
Theorem C68_linear_data : forall d xs ys ns h lam t f f' s o, grid_data d xs ys ns h -> targets_are t ys -> t = In1 ys \/ d = 1%nat ->
  length s = d -> (forall i, (i < length xs)%nat -> nth i ys 0 = affine s o (nth i xs [])) ->
  train f (lwr_train exp ns h lam t) (In2 (Mat d xs)) = (f', Ok tt) ->
  forall X, X <> [] -> Forall (fun r => length r = d) X ->
    predict f' (lwr_predict exp) (In2 (Mat d X)) = Ok (map (affine s o) X).
Proof. exact lwr_exact. Qed.
Print Assumptions C68_linear_data.
Theorem C68_one_basis_function : forall d xs ys ns h lam t f f', grid_data d xs ys ns h -> targets_are t ys -> t = In1 ys \/ d = 1%nat ->
  prod ns = 1%nat -> train f (lwr_train exp ns h lam t) (In2 (Mat d xs)) = (f', Ok tt) ->
  exists s o, best true d xs ys (ones (length xs)) 0 s o /\
    forall X, X <> [] -> Forall (fun r => length r = d) X ->
      predict f' (lwr_predict exp) (In2 (Mat d X)) = Ok (map (affine s o) X).
Proof. intros d xs ys ns h lam t f f' H1 H2 H3. exact (lwr_one d xs ys ns h lam t H1 H2 H3 f f'). Qed.
Print Assumptions C68_one_basis_function.
(** finding: nan if the inputs are equal in a dimension with several basis functions *)
Theorem C68_constant_inputs : forall ex d xs ns h lam t f, samples d xs -> (0 < d)%nat -> per_dim d ns -> 0 < h < 1 -> ~ spread d xs ns ->
  train f (lwr_train ex ns h lam t) (In2 (Mat d xs)) = (f, Err NonFinite).
Proof. intros ex d xs ns h lam t f H1 H2 H3 H4 H5. exact (constant_lwr ex d xs ns h H1 H2 H3 H4 H5 lam t f). Qed.
Print Assumptions C68_constant_inputs.
Example C68_case : grid_data 2 sq sqy [2; 2]%nat 0.5 /\
  exists f', train no_fa (lwr_train exp [2; 2]%nat 0.5 0 (In1 sqy)) (In2 (Mat 2 sq)) = (f', Ok tt).
Proof.
  split; [exact sq_grid|]. apply is_ok_train.
  apply (lwr_succeeds 2 sq sqy _ 0.5 0 (In1 sqy) sq_grid (or_introl eq_refl) (or_introl eq_refl)). exact sq_det.
Qed.

(** ** C69. Full statement: each local regression is solved with the given regularization. False: the
    parameter is ignored, so the statement holds for regularization 0 only. *)
Theorem C69_refuted : exists f', train no_fa (lwr_train exp [1%nat] 0.5 1 (In1 [0; 1])) (In2 (Mat 1 two)) = (f', Ok tt) /\
  ~ exists s o, best true 1 two [0; 1] (ones 2) 1 s o /\
    forall X, X <> [] -> Forall (fun r => length r = 1%nat) X ->
      predict f' (lwr_predict exp) (In2 (Mat 1 X)) = Ok (map (affine s o) X).
Proof. exact lwr_unregularized. Qed.
Print Assumptions C69_refuted.
Theorem C69_zero_partial : forall d xs ys ns h t f f', grid_data d xs ys ns h -> targets_are t ys -> t = In1 ys \/ d = 1%nat ->
  train f (lwr_train exp ns h 0 t) (In2 (Mat d xs)) = (f', Ok tt) ->
  exists C W lines, length lines = prod ns /\
    (forall k, (k < prod ns)%nat ->
       best true d xs ys (map (fun x => nth k (shares C W x) 0) xs) 0 (fst (nth k lines ([], 0))) (snd (nth k lines ([], 0)))) /\
    forall X, X <> [] -> Forall (fun r => length r = d) X ->
      predict f' (lwr_predict exp) (In2 (Mat d X)) = Ok (map (lwr_sum C W lines) X).
Proof.
  intros d xs ys ns h t f f' H1 H2 H3 E. destruct (lwr_model d xs ys ns h 0 t H1 H2 H3 f f' E) as (C & W & lines & _ & Ll & _ & _ & B & P).
  exists C, W, lines. auto.
Qed.
Print Assumptions C69_zero_partial.
Theorem C69_ignored : forall ex ns h lam lam' t f inputs, train f (lwr_train ex ns h lam t) inputs = train f (lwr_train ex ns h lam' t) inputs.
Proof. reflexivity. Qed.
Print Assumptions C69_ignored.
Example C69_case : exists f', train no_fa (lwr_train exp [2; 2]%nat 0.5 0 (In1 sqy)) (In2 (Mat 2 sq)) = (f', Ok tt).
Proof. apply C68_case. Qed.

(** ** C70 *)
Theorem C70_model : forall d xs ys ns h lam t f f', grid_data d xs ys ns h -> targets_are t ys -> 0 <= lam ->
  train f (rbfn_train exp ns h lam t) (In2 (Mat d xs)) = (f', Ok tt) ->
  exists C W ws, get_centers_and_widths (In2 (Mat d xs)) ns h = Ok (Mat d C, Mat d W) /\
    length ws = prod ns /\ length C = prod ns /\ length W = prod ns /\
    (forall v, length v = prod ns -> rbf_error C W xs ys lam ws <= rbf_error C W xs ys lam v /\
       (rbf_error C W xs ys lam v = rbf_error C W xs ys lam ws -> v = ws)) /\
    (forall X, X <> [] -> Forall (fun r => length r = d) X ->
      predict f' (rbfn_predict exp) (In2 (Mat d X)) = Ok (map (rbf_sum C W ws) X)) /\
    (forall v X, length v = prod ns -> X <> [] -> Forall (fun r => length r = d) X ->
       exists g, fa_set (fa_select f' (NStr "weights")) v = (g, Ok tt) /\
         predict g (rbfn_predict exp) (In2 (Mat d X)) = Ok (map (rbf_sum C W v) X)).
Proof. intros d xs ys ns h lam t f f' H1 H2. exact (rbfn_model d xs ys ns h lam t H1 H2 f f'). Qed.
Print Assumptions C70_model.
Theorem C70_linear : forall C W a b v w x, length v = length w ->
  rbf_sum C W (map2 (fun p q => a * p + b * q) v w) x = a * rbf_sum C W v x + b * rbf_sum C W w x.
Proof.
  intros C W a b v w x. unfold rbf_sum, dot. generalize (gaussians C W x). revert w.
  induction v as [|p v IH]; intros [|q w] g L; try discriminate.
  - destruct g; cbn; ring.
  - destruct g as [|y g]; cbn; [ring|]. rewrite IH by (now injection L). ring.
Qed.
Print Assumptions C70_linear.
Theorem C70_success : forall d xs ys ns h lam t f, grid_data d xs ys ns h -> targets_are t ys -> 0 <= lam ->
  (exists C W, get_centers_and_widths (In2 (Mat d xs)) ns h = Ok (Mat d C, Mat d W) /\
   (is_ok (snd (train f (rbfn_train exp ns h lam t) (In2 (Mat d xs)))) <->
    0 < lam \/ forall v, length v = prod ns -> (forall x, In x xs -> rbf_sum C W v x = 0) -> v = repeat 0 (prod ns))) /\
  (forall f' e, train f (rbfn_train exp ns h lam t) (In2 (Mat d xs)) = (f', Err e) -> e = LinAlgError).
Proof. intros d xs ys ns h lam t f H1 H2. exact (rbfn_succeeds d xs ys ns h lam t H1 H2 f). Qed.
Print Assumptions C70_success.
(** one-dimensional inputs, no regularization: as many different samples as basis functions *)
Theorem C70_success_1d : forall xs ys t n h f, samples 1 xs -> (0 < n)%nat -> spread 1 xs [n] -> 0 < h < 1 ->
  length ys = length xs -> targets_are t ys ->
  (is_ok (snd (train f (rbfn_train exp [n] h 0 t) (In2 (Mat 1 xs)))) <-> at_least n xs).
Proof.
  intros xs ys t n h f S N Sp H L T. rewrite train_is_ok by apply S. exact (rbfn_1_ok xs ys t n h S N Sp H L T).
Qed.
Print Assumptions C70_success_1d.
Theorem C70_constant_inputs : forall ex d xs ns h lam t f, samples d xs -> (0 < d)%nat -> per_dim d ns -> 0 < h < 1 -> ~ spread d xs ns ->
  train f (rbfn_train ex ns h lam t) (In2 (Mat d xs)) = (f, Err NonFinite).
Proof. intros ex d xs ns h lam t f H1 H2 H3 H4 H5. exact (constant_rbfn ex d xs ns h H1 H2 H3 H4 H5 lam t f). Qed.
Print Assumptions C70_constant_inputs.
Example C70_case : grid_data 2 sq sqy [2; 2]%nat 0.5 /\ is_ok (snd (train no_fa (rbfn_train exp [2; 2]%nat 0.5 0.1 (In1 sqy)) (In2 (Mat 2 sq)))) /\
  is_ok (snd (train no_fa (rbfn_train exp [2%nat] 0.5 0 (In1 [0; 1])) (In2 (Mat 1 two)))) /\
  ~ is_ok (snd (train no_fa (rbfn_train exp [3%nat] 0.5 0 (In1 [0; 1])) (In2 (Mat 1 two)))).
Proof.
  split; [exact sq_grid|]. split.
  - destruct (C70_success 2 sq sqy [2; 2]%nat 0.5 0.1 (In1 sqy) no_fa sq_grid (or_introl eq_refl) ltac:(lra)) as [(C & W & _ & [_ H]) _].
    apply H. left. lra.
  - split.
    + apply (C70_success_1d two [0; 1] _ 2 0.5); try (exact two_samples || lia || lra || reflexivity || now left); [|exact two_at_least].
      apply (gd_spread _ _ _ _ _ (two_grid 2 ltac:(lia))).
    + intros H. apply (C70_success_1d two [0; 1] _ 3 0.5) in H; try (exact two_samples || lia || lra || reflexivity || now left);
        [exact (two_not_3 H)|]. apply (gd_spread _ _ _ _ _ (two_grid 3 ltac:(lia))).
Qed.

(** ** C71 *)
Theorem C71_interpolates : forall d xs ys mx ls t f f', samples d xs -> length ys = length xs -> targets_are t ys ->
  length ls = d -> Forall (fun l => l <> 0) ls ->
  train f (gpr_train exp mx ls t) (In2 (Mat d xs)) = (f', Ok tt) ->
  predict f' (gpr_predict exp) (In2 (Mat d xs)) = Ok ys /\
  exists ws, length ws = length xs /\ forall X, X <> [] -> Forall (fun r => length r = d) X ->
    predict f' (gpr_predict exp) (In2 (Mat d X)) = Ok (map (fun x => mx * rbf_sum xs (repeat ls (length xs)) ws x) X).
Proof. intros d xs ys mx ls t f f' H1 H2 H3 H4 H5. exact (gpr_model d xs ys mx ls t H1 H2 H3 H4 H5 f f'). Qed.
Print Assumptions C71_interpolates.
Theorem C71_success : forall d xs ys mx ls t f, samples d xs -> length ys = length xs -> targets_are t ys -> mx <> 0 ->
  length ls = d -> Forall (fun l => l <> 0) ls ->
  (is_ok (snd (train f (gpr_train exp mx ls t) (In2 (Mat d xs)))) <-> NoDup xs) /\
  (forall f' e, train f (gpr_train exp mx ls t) (In2 (Mat d xs)) = (f', Err e) -> e = LinAlgError).
Proof. intros d xs ys mx ls t f H1 H2 H3 H4 H5 H6. exact (gpr_succeeds d xs ys mx ls t H1 H2 H3 H4 H5 H6 f). Qed.
Print Assumptions C71_success.
Theorem C71_one_length : forall mx l t d xs ex f,
  train f (gpr_train ex mx [l] t) (In2 (Mat d xs)) = train f (gpr_train ex mx (repeat l d) t) (In2 (Mat d xs)).
Proof. intros mx l t d xs ex f. unfold train, as_columns. cbn [mrows]. destruct xs; [reflexivity|]. now rewrite gpr_one_length. Qed.
Print Assumptions C71_one_length.
Example C71_case : exists f', train no_fa (gpr_train exp 2 [1; 3] (In1 sqy)) (In2 (Mat 2 sq)) = (f', Ok tt) /\
  predict f' (gpr_predict exp) (In2 (Mat 2 sq)) = Ok sqy.
Proof.
  destruct (C71_success 2 sq sqy 2 [1; 3] (In1 sqy) no_fa sq_samples eq_refl (or_introl eq_refl) ltac:(lra) eq_refl ltac:(repeat constructor; lra)) as [[_ S] _].
  destruct (is_ok_train _ _ _ (S sq_nodup)) as [f' E]. exists f'. split; [exact E|].
  exact (proj1 (C71_interpolates 2 sq sqy 2 [1; 3] (In1 sqy) no_fa f' sq_samples eq_refl (or_introl eq_refl) eq_refl ltac:(repeat constructor; lra) E)).
Qed.

(** ** C72. Full statement: with one number n of basis functions and inputs of dimension D, LWR and
    RBFN use n^D basis functions and can predict. False for n >= 2, D >= 2: training succeeds, and
    every prediction raises. True for D = 1, and with a list of D numbers. *)
Theorem C72_rbfn_refuted : forall d xs ys n h lam t f, (2 <= n)%nat -> (2 <= d)%nat ->
  grid_data d xs ys (repeat n d) h -> targets_are t ys -> 0 < lam ->
  exists f', train f (rbfn_train exp [n] h lam t) (In2 (Mat d xs)) = (f', Ok tt) /\
    forall X, X <> [] -> Forall (fun r => length r = d) X ->
      predict f' (rbfn_predict exp) (In2 (Mat d X)) = Err ValueError \/
      predict f' (rbfn_predict exp) (In2 (Mat d X)) = Err IndexError.
Proof. intros d xs ys n h lam t f H1 H2 H3 H4. exact (rbfn_scalar d xs ys n h lam t H1 H2 H3 H4 f). Qed.
Print Assumptions C72_rbfn_refuted.
Theorem C72_lwr_refuted : forall d xs ys n h lam t f, (2 <= n)%nat -> (2 <= d)%nat ->
  grid_data d xs ys (repeat n d) h -> targets_are t ys -> t = In1 ys -> determined true d xs (ones (length xs)) ->
  exists f', train f (lwr_train exp [n] h lam t) (In2 (Mat d xs)) = (f', Ok tt) /\
    forall X, X <> [] -> Forall (fun r => length r = d) X -> predict f' (lwr_predict exp) (In2 (Mat d X)) = Err ValueError.
Proof.
  intros d xs ys n h lam t f H1 H2 H3 H4 H5. subst t. apply (lwr_scalar d xs ys n h lam (In1 ys) H1 H2 H3); auto.
Qed.
Print Assumptions C72_lwr_refuted.
Theorem C72_list_partial : forall d xs ys ns h lam f, grid_data d xs ys ns h -> 0 < lam -> determined true d xs (ones (length xs)) ->
  exists f1 f2, train f (rbfn_train exp ns h lam (In1 ys)) (In2 (Mat d xs)) = (f1, Ok tt) /\
    train f (lwr_train exp ns h lam (In1 ys)) (In2 (Mat d xs)) = (f2, Ok tt) /\
    forall X, X <> [] -> Forall (fun r => length r = d) X ->
      exists p q, predict f1 (rbfn_predict exp) (In2 (Mat d X)) = Ok p /\ length p = length X /\
                  predict f2 (lwr_predict exp) (In2 (Mat d X)) = Ok q /\ length q = length X.
Proof.
  intros d xs ys ns h lam f G Hl Det.
  destruct (C70_success d xs ys ns h lam (In1 ys) f G (or_introl eq_refl) ltac:(lra)) as [(C & W & _ & [_ H]) _].
  destruct (is_ok_train _ _ _ (H (or_introl Hl))) as [f1 E1].
  destruct (C68_success d xs ys ns h lam (In1 ys) f G (or_introl eq_refl) (or_introl eq_refl)) as [[_ H'] _].
  destruct (is_ok_train _ _ _ (H' Det)) as [f2 E2]. exists f1, f2. split; [exact E1|]. split; [exact E2|].
  destruct (C70_model d xs ys ns h lam (In1 ys) f f1 G (or_introl eq_refl) ltac:(lra) E1) as (C1 & W1 & ws & _ & _ & _ & _ & _ & P1 & _).
  destruct (C68_model d xs ys ns h lam (In1 ys) f f2 G (or_introl eq_refl) (or_introl eq_refl) E2) as (C2 & W2 & ls & _ & _ & _ & _ & _ & P2).
  intros X N HX. do 2 eexists. split; [now apply P1|]. split; [apply map_length|]. split; [now apply P2|apply map_length].
Qed.
Print Assumptions C72_list_partial.
Example C72_case : grid_data 2 sq sqy (repeat 2%nat 2) 0.5 /\ determined true 2 sq (ones (length sq)).
Proof. split; [exact sq_grid|exact sq_det]. Qed.

(** ** C86: a batch is predicted sample by sample *)
Theorem C86_wls : forall u lam w d xs ys f f', weighted_data d xs ys (weights_or_ones w (length xs)) -> 0 <= lam ->
  train f (wls_train u lam w (In1 ys)) (In2 (Mat d xs)) = (f', Ok tt) ->
  exists F, forall X, X <> [] -> Forall (fun r => length r = d) X ->
    predict f' wls_predict (In2 (Mat d X)) = Ok (In1 (map F X)).
Proof. exact wls_batch. Qed.
Print Assumptions C86_wls.
Theorem C86_basis_functions : forall d xs ys ns h lam t f f1 f2, grid_data d xs ys ns h -> targets_are t ys -> t = In1 ys \/ d = 1%nat -> 0 <= lam ->
  train f (rbfn_train exp ns h lam t) (In2 (Mat d xs)) = (f1, Ok tt) ->
  train f (lwr_train exp ns h lam t) (In2 (Mat d xs)) = (f2, Ok tt) ->
  exists F1 F2, forall X, X <> [] -> Forall (fun r => length r = d) X ->
    predict f1 (rbfn_predict exp) (In2 (Mat d X)) = Ok (map F1 X) /\
    predict f2 (lwr_predict exp) (In2 (Mat d X)) = Ok (map F2 X).
Proof.
  intros d xs ys ns h lam t f f1 f2 G T T1 Hl E1 E2.
  destruct (C70_model d xs ys ns h lam t f f1 G T Hl E1) as (C1 & W1 & ws & _ & _ & _ & _ & _ & P1 & _).
  destruct (C68_model d xs ys ns h lam t f f2 G T T1 E2) as (C2 & W2 & ls & _ & _ & _ & _ & _ & P2).
  exists (rbf_sum C1 W1 ws), (lwr_sum C2 W2 ls). intros X N HX. split; [now apply P1|now apply P2].
Qed.
Print Assumptions C86_basis_functions.
Theorem C86_gpr : forall d xs ys mx ls t f f', samples d xs -> length ys = length xs -> targets_are t ys ->
  length ls = d -> Forall (fun l => l <> 0) ls ->
  train f (gpr_train exp mx ls t) (In2 (Mat d xs)) = (f', Ok tt) ->
  exists F, forall X, X <> [] -> Forall (fun r => length r = d) X -> predict f' (gpr_predict exp) (In2 (Mat d X)) = Ok (map F X).
Proof.
  intros d xs ys mx ls t f f' H1 H2 H3 H4 H5 E. destruct (C71_interpolates d xs ys mx ls t f f' H1 H2 H3 H4 H5 E) as (_ & ws & _ & P).
  eexists. exact P.
Qed.
Print Assumptions C86_gpr.
Theorem C86_vectors : forall (B : Type) f fn (pf : list (string * pval) -> mat -> res B) l,
  train f fn (In1 l) = train f fn (In2 (column l)) /\ predict f pf (In1 l) = predict f pf (In2 (column l)).
Proof. intros. split; [apply train_vector|apply predict_vector]. Qed.
Print Assumptions C86_vectors.
Example C86_case : exists f1 f2 f3, train no_fa (rbfn_train exp [2; 2]%nat 0.5 0.1 (In1 sqy)) (In2 (Mat 2 sq)) = (f1, Ok tt) /\
  train no_fa (lwr_train exp [2; 2]%nat 0.5 0.1 (In1 sqy)) (In2 (Mat 2 sq)) = (f2, Ok tt) /\
  train no_fa (gpr_train exp 2 [1; 3] (In1 sqy)) (In2 (Mat 2 sq)) = (f3, Ok tt).
Proof.
  destruct (C72_list_partial 2 sq sqy [2; 2]%nat 0.5 0.1 no_fa sq_grid ltac:(lra) sq_det) as (f1 & f2 & E1 & E2 & _).
  destruct C71_case as (f3 & E3 & _). exists f1, f2, f3. auto.
Qed.
