(** The properties of the function approximators, in terms of the specification. *)
From Coq Require Import String.
From Verif Require Import Base BaseLemmas ParamModel FaModel FaSpec FaProofs FaProofs2 FaProofs3 FaProofs4 FaProofs5 FaProofs6 FaProofs7 FaProofs8 FaProofs9 FaProofs10 FaProofs11.
Open Scope list_scope.
Open Scope R_scope.

(** ** C64 *)
Lemma activations_kernel ex d X C W nb : exp_like ex ->
  Forall (fun r => length r = d) X -> Forall (fun r => length r = d) C -> Forall (fun r => length r = d) W ->
  length W = length C -> C <> [] -> Forall (fun r => Forall (fun s => s <> 0) r) W ->
  exists A, activations ex (In2 (Mat d X)) (In2 (Mat d C)) (In2 (Mat d W)) nb = Ok (Mat (length C) A) /\
    length A = length X /\ Forall (fun row => length row = length C) A /\
    (nb = false -> Forall (Forall (fun a => 0 <= a <= 1)) A /\
       forall i b, (i < length X)%nat -> (b < length C)%nat -> nth i X [] = nth b C [] -> nth b (nth i A []) 0 = 1) /\
    (nb = true -> Forall (fun row => Forall (fun a => 0 <= a) row /\ rsum row = 1) A).
Proof.
  intros E HX HC HW L NE N. exists (map (row_of ex C W nb) X).
  split; [apply activations_values; assumption|]. split; [apply map_length|].
  split.
  { apply Forall_map, Forall_forall. intros x _. destruct nb.
    - apply row_of_weights; assumption.
    - cbn. unfold raw. rewrite map2_length. lia. }
  split; intros ->.
  - split.
    + apply Forall_map, Forall_forall. intros x _. cbn [row_of]. now apply raw_nonneg.
    + intros i b Hi Hb Exc. rewrite (nth_map_lt (row_of ex C W false) X i [] []) by assumption. cbn [row_of]. unfold raw.
      rewrite (nth_map2 _ C W b [] [] 0) by lia. rewrite Exc. apply kern_center; [assumption|].
      rewrite Forall_forall in N. apply N. apply nth_In. lia.
  - apply Forall_map, Forall_forall. intros x _. destruct (row_of_weights ex C W x E N L NE) as (_ & A & B). auto.
Qed.
Lemma activations_gaussians d X C W :
  Forall (fun r => length r = d) X -> Forall (fun r => length r = d) C -> Forall (fun r => length r = d) W ->
  length W = length C -> C <> [] -> Forall (fun r => Forall (fun s => s <> 0) r) W ->
  activations exp (In2 (Mat d X)) (In2 (Mat d C)) (In2 (Mat d W)) false = Ok (Mat (length C) (map (gaussians C W) X)) /\
  activations exp (In2 (Mat d X)) (In2 (Mat d C)) (In2 (Mat d W)) true = Ok (Mat (length C) (map (shares C W) X)).
Proof.
  intros HX HC HW L NE N. split; rewrite activations_values by assumption; f_equal; f_equal; apply map_ext_in; intros x Hx;
    rewrite Forall_forall in HX; specialize (HX x Hx).
  - cbn [row_of]. now apply (raw_gaussians d).
  - now apply (row_of_shares d).
Qed.
Lemma gaussian_range c w x : length x = length c -> length w = length c -> Forall (fun s => s <> 0) w ->
  0 < gaussian c w x <= 1 /\ (gaussian c w x = 1 <-> x = c).
Proof.
  intros Lx Lw N. rewrite <- (kern_gaussian (length c)) by congruence. split; [split|].
  - rewrite (kern_gaussian (length c)) by congruence. apply gaussian_pos.
  - apply kern_bounds; [apply exp_exp_like|assumption].
  - split; [apply kern_one_iff; congruence|]. intros ->. apply kern_center; [apply exp_exp_like|assumption].
Qed.
Lemma column_of_in1 l n : length l = n -> as_column n (In1 l) = as_column n (In2 (column l)).
Proof.
  intros <-. unfold as_column, isize, idata, column, nrows. cbn [mrows mcols].
  assert (E : List.concat (map (fun x => [x]) l) = l) by (induction l; cbn; [reflexivity|]; now rewrite IHl).
  rewrite E. destruct (Nat.eqb_spec (length l) (length l)) as [_|]; [|lia].
  destruct (Nat.eqb_spec (length (map (fun x => [x]) l) * 1) (length l)) as [_|N]; [reflexivity|]. rewrite map_length in N. lia.
Qed.
Lemma activations_vectors ex xs cs ws nb : length ws = length cs ->
  activations ex (In1 xs) (In1 cs) (In1 ws) nb = activations ex (In2 (column xs)) (In2 (column cs)) (In2 (column ws)) nb.
Proof.
  intros L. unfold activations. cbn [shape0]. assert (N : forall l, nrows (column l) = length l) by (intros; apply map_length).
  rewrite !N. cbn [mcols column].
  cbn [Nat.eqb]. rewrite (column_of_in1 cs (length cs)), (column_of_in1 ws (length cs)), (column_of_in1 xs (length xs)) by auto.
  reflexivity.
Qed.

(** ** C65 *)
Lemma center_grid d xs ns h : samples d xs -> (0 < d)%nat -> per_dim d ns -> 0 < h < 1 ->
  exists axes W, get_centers_and_widths (In2 (Mat d xs)) ns h = Ok (Mat d (grid axes), Mat d W) /\
    length axes = d /\
    (forall k, (k < d)%nat -> exists lo hi, column_range xs k lo hi /\ equispaced lo hi (nth k ns 0%nat) (nth k axes [])) /\
    length (grid axes) = prod ns /\ length W = prod ns /\ Forall (fun r => length r = d) W /\
    (spread d xs ns -> NoDup (grid axes)).
Proof.
  intros S D [L P] H. destruct (centers_and_widths d xs ns h S D L P H) as (los & his & Rg & E).
  eexists. eexists. split; [exact E|]. split; [now rewrite map_length, seq_length|].
  assert (Lp : prod (map (fun k => nth k ns 0%nat) (seq 0 d)) = prod ns).
  { f_equal. rewrite <- L. symmetry. apply list_eq_map_nth. }
  split; [|split; [|split; [|split]]].
  - intros k Hk. exists (nth k los 0), (nth k his 0). split; [now apply Rg|]. rewrite nth_map_seq by assumption.
    apply linspace_equispaced.
  - rewrite grid_length, map_map, <- Lp. f_equal. apply map_ext. intros. apply linspace_length.
  - rewrite grid_length, map_map, <- Lp. f_equal. apply map_ext. intros. apply repeat_length.
  - pose proof (grid_rows (map (fun dd => repeat (dim_width h (nth dd los 0) (nth dd his 0) (nth dd ns 0%nat)) (nth dd ns 0%nat)) (seq 0 d))) as G.
    now rewrite map_length, seq_length in G.
  - intros Sp. apply NoDup_grid. apply Forall_map, Forall_forall. intros k Hk. apply in_seq in Hk. apply linspace_NoDup.
    destruct (spread_range d xs ns k _ _ S Sp (proj2 Hk) (Rg k (proj2 Hk))) as [_ Q]. exact Q.
Qed.
(** numbers beyond the dimensions of the inputs are accepted, and give basis functions that are all zeros *)
Lemma extra_numbers d xs ns h : samples d xs -> (0 < d)%nat -> (d <= length ns)%nat ->
  Forall (fun n => (0 < n)%nat) ns -> 0 < h < 1 ->
  exists C W, get_centers_and_widths (In2 (Mat d xs)) (firstn d ns) h = Ok (Mat d C, Mat d W) /\
    get_centers_and_widths (In2 (Mat d xs)) ns h =
      Ok (Mat d (C ++ repeat (repeat 0 d) (prod ns - prod (firstn d ns))),
          Mat d (W ++ repeat (repeat 0 d) (prod ns - prod (firstn d ns)))).
Proof.
  intros S D L P H. destruct (all_centers_and_widths d xs ns h S D L P H) as (los & his & R1 & E1).
  assert (PF : Forall (fun n => (0 < n)%nat) (firstn d ns)).
  { rewrite <- (firstn_skipn d ns) in P. apply Forall_app in P. apply P. }
  destruct (centers_and_widths d xs (firstn d ns) h S D ltac:(apply firstn_length_le; assumption) PF H) as (los' & his' & R2 & E2).
  assert (Q : forall k, (k < d)%nat -> nth k los' 0 = nth k los 0 /\ nth k his' 0 = nth k his 0 /\ nth k (firstn d ns) 0%nat = nth k ns 0%nat).
  { intros k Hk. destruct (column_range_unique xs k _ _ _ _ (R2 k Hk) (R1 k Hk)) as [-> ->]. split; [reflexivity|]. split; [reflexivity|].
    rewrite nth_firstn. destruct (Nat.ltb_spec k d); [reflexivity|lia]. }
  eexists. eexists. split; [exact E2|]. rewrite E1. f_equal. f_equal; f_equal; f_equal; f_equal; apply map_ext_in; intros k Hk; apply in_seq in Hk;
    destruct (Q k (proj2 Hk)) as (-> & -> & ->); reflexivity.
Qed.

(** ** C66 *)
Lemma neighbour_height d xs ns h C W : samples d xs -> (0 < d)%nat -> per_dim d ns -> spread d xs ns -> 0 < h < 1 ->
  get_centers_and_widths (In2 (Mat d xs)) ns h = Ok (Mat d C, Mat d W) ->
  forall k a b wa wb, (k < d)%nat -> In (a, wa) (combine C W) -> In (b, wb) (combine C W) -> neighbours C k a b ->
  gaussian a wa (midpoint a b) = h /\ gaussian b wb (midpoint a b) = h.
Proof.
  intros S D [L P] Sp H E k a b wa wb Hk Ia Ib Nb.
  destruct (centers_and_widths d xs ns h S D L P H) as (los & his & Rg & E').
  rewrite grid_repeat in E'. rewrite E in E'.
  set (ls := map (fun dd => linspace (nth dd los 0) (nth dd his 0) (nth dd ns 0%nat)) (seq 0 d)) in *.
  set (w := map (fun dd => dim_width h (nth dd los 0) (nth dd his 0) (nth dd ns 0%nat)) (seq 0 d)) in *.
  assert (EC : C = grid ls) by congruence.
  assert (EW : W = repeat w (prod (map (fun dd => nth dd ns 0%nat) (seq 0 d)))) by congruence.
  assert (Wa : wa = w). { apply in_combine_r in Ia. rewrite EW in Ia. now apply repeat_spec in Ia. }
  assert (Wb : wb = w). { apply in_combine_r in Ib. rewrite EW in Ib. now apply repeat_spec in Ib. }
  subst wa wb. rewrite EC in Nb.
  destruct (spread_range d xs ns k _ _ S Sp Hk (Rg k Hk)) as [Le _].
  destruct (neighbours_step d los his ns k a b Hk Le Nb) as (N1 & Lt & St). destruct Nb as (Ga & Gb & Eq & Lab & _).
  assert (La : length a = d) by (now apply (in_centers d los his ns a)).
  assert (Lb : length b = d) by (now apply (in_centers d los his ns b)).
  assert (Lw : length w = d) by (unfold w; now rewrite map_length, seq_length).
  assert (Wk : forall q, (q < d)%nat -> nth q w 0 = dim_width h (nth q los 0) (nth q his 0) (nth q ns 0%nat)).
  { intros q Hq. unfold w. now rewrite nth_map_seq. }
  apply (gaussian_halfway d w a b k h H La Lb Lw Hk Eq).
  - intros q Hq. rewrite Wk by assumption. unfold dim_width. destruct (Nat.leb_spec (nth q ns 0%nat) 1); [lra|].
    destruct (spread_range d xs ns q _ _ S Sp Hq (Rg q Hq)) as [_ [E1|Lq]]; [lia|].
    apply Rgt_not_eq. apply the_width_pos; [assumption|]. apply Rgt_not_eq. apply Rdiv_lt_0_compat; [lra|]. apply lt_0_INR. lia.
  - lra.
  - rewrite Wk by assumption. unfold dim_width. destruct (Nat.leb_spec (nth k ns 0%nat) 1); [lia|]. now rewrite St.
Qed.

(** ** training and predicting *)
Lemma train_ok f fn d xs f' : xs <> [] ->
  (train f fn (In2 (Mat d xs)) = (f', Ok tt) <-> exists ps, fn (Mat d xs) = Ok ps /\ f' = Fa ps (Some d) (f_sel f)).
Proof.
  intros N. unfold train, as_columns. cbn [mrows]. destruct xs; [contradiction|].
  destruct (fn _) as [ps|e]; cbn [mcols]; split.
  - intros E. exists ps. split; [reflexivity|congruence].
  - intros (ps' & E & ->). congruence.
  - intros E. discriminate.
  - intros (ps' & E & _). discriminate.
Qed.
Lemma train_fails f fn d xs f' e : xs <> [] -> train f fn (In2 (Mat d xs)) = (f', Err e) -> f' = f /\ fn (Mat d xs) = Err e.
Proof.
  intros N. unfold train, as_columns. cbn [mrows]. destruct xs; [contradiction|]. destruct (fn _) as [ps|e']; intros E; [discriminate|].
  split; congruence.
Qed.
Lemma predict_ok {B} ps d sel (pf : list (string * pval) -> mat -> res B) X : X <> [] ->
  predict (Fa ps (Some d) sel) pf (In2 (Mat d X)) = pf ps (Mat d X).
Proof.
  intros N. unfold predict, as_columns. cbn [f_dim mrows f_model]. destruct X; [contradiction|]. cbn [bind mcols]. now rewrite Nat.eqb_refl.
Qed.
Lemma train_is_ok f fn d xs : xs <> [] -> (is_ok (snd (train f fn (In2 (Mat d xs)))) <-> is_ok (fn (Mat d xs))).
Proof.
  intros N. unfold train, as_columns. cbn [mrows]. destruct xs; [contradiction|]. destruct (fn _) as [ps|e]; cbn [snd]; split; intros [? E]; try discriminate; eexists; reflexivity.
Qed.

(** ** C67 *)
Lemma ones_fit n : Forall (fun w => 0 <= w) (ones n).
Proof. apply Forall_forall. intros x Hx. apply repeat_spec in Hx. lra. Qed.
Section Wls.
Variables (u : bool) (lam : R) (w : option (list R)) (d : nat) (xs : list (list R)) (ys : list R) (t : input).
Hypothesis HD : weighted_data d xs ys (weights_or_ones w (length xs)).
Hypothesis Hl : 0 <= lam.
Hypothesis Ht : targets_are t ys.

Let Wf : mat_wf (Mat d xs). Proof. apply HD. Qed.
Let Ly : length ys = nrows (Mat d xs). Proof. apply HD. Qed.
Let Lw : weights_fit w (nrows (Mat d xs)).
Proof. destruct HD as (_ & _ & L & _). destruct w; [exact L|exact I]. Qed.
Let Pos : (0 < nrows (Mat d xs))%nat.
Proof. destruct HD as ((N & _) & _). unfold nrows. cbn. destruct xs; [contradiction|cbn; lia]. Qed.
Let Pw : forall i, (i < nrows (Mat d xs))%nat -> 0 <= weight_fn w i.
Proof.
  intros i Hi. destruct HD as (_ & _ & L & F). destruct w as [ws|]; cbn in *; [|lra].
  rewrite Forall_forall in F. apply F. apply nth_In. rewrite L. exact Hi.
Qed.
Lemma wls_best f f' : train f (wls_train u lam w t) (In2 (Mat d xs)) = (f', Ok tt) ->
  exists s o, best u d xs ys (weights_or_ones w (length xs)) lam s o /\
    forall X, X <> [] -> Forall (fun r => length r = d) X ->
      predict f' wls_predict (In2 (Mat d X)) =
      match t with
      | In1 _ => Ok (In1 (map (affine s o) X))
      | In2 _ => if Nat.eqb d 1 then Ok (In2 (column (map (affine s o) X))) else Err ValueError
      end.
Proof.
  intros E. apply train_ok in E; [|apply HD]. destruct E as (ps & E & ->).
  destruct (fit_best u lam (Mat d xs) d Wf eq_refl w ys Ly Lw Pos Hl Pw t ps Ht E) as (s & o & B & ->).
  exists s, o. split; [destruct w; exact B|]. intros X N HX. rewrite predict_ok by assumption.
  destruct B as (Ls & Ho & _). destruct Ht as [Et | Et].
  - rewrite Et at 2. rewrite (wls_predict_fit u t ys s o d (Mat d X) Et Ls Ho eq_refl). reflexivity.
  - rewrite Et at 2. destruct (Nat.eqb_spec d 1) as [->|Nd].
    + rewrite Et. unfold fit_params, coeff_list, wls_predict, param_arr.
      destruct s as [|s0 [|? ?]]; try discriminate.
      assert (Q : forall oo, mtab (length X) 1 (fun i j => nth 0 (nth i X []) 0 * nth j [s0] 0 + oo) = column (map (affine [s0] oo) X)).
      { intros oo. unfold mtab, column. f_equal. rewrite map_map. apply (nth_ext _ _ [] []); rewrite !map_length, seq_length; [reflexivity|].
        intros i Hi. rewrite nth_map_seq by assumption. rewrite (nth_map_lt (fun x => [affine [s0] oo x]) X i [] []) by assumption.
        cbn [seq map]. f_equal. unfold affine, dot. rewrite Forall_forall in HX. specialize (HX (nth i X []) (nth_In _ _ Hi)).
        destruct (nth i X []) as [|x0 [|? ?]]; try discriminate. cbn. ring. }
      destruct u; cbn; unfold nrows; cbn [mrows].
      * f_equal. f_equal. apply Q.
      * rewrite (Ho eq_refl). f_equal. f_equal. apply Q.
    + apply (wls_predict_column u t ys s o d (Mat d X) Et Ls eq_refl Nd).
Qed.
Lemma wls_succeeds f :
  (is_ok (snd (train f (wls_train u lam w t) (In2 (Mat d xs)))) <-> 0 < lam \/ determined u d xs (weights_or_ones w (length xs))) /\
  (forall f' e, train f (wls_train u lam w t) (In2 (Mat d xs)) = (f', Err e) -> e = LinAlgError).
Proof.
  destruct (fit_ok u lam (Mat d xs) d Wf eq_refl w ys Ly Lw Pos Hl Pw t Ht) as [F1 F2]. split.
  - rewrite train_is_ok by apply HD. rewrite F1. destruct w; reflexivity.
  - intros f' e E. apply train_fails in E; [|apply HD]. apply F2. apply E.
Qed.
End Wls.
