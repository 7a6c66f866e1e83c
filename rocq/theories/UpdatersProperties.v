(** Properties C01 - C16: weights, updaters, distributions. Statements only; every proof is
    [exact] of a lemma proved elsewhere. [argsort_ok argsort] is the contract of numpy's argsort
    (UpdatersSpec.v); it leaves the order of ties open, so the theorems hold for every tie order. *)
From Coq Require Import String.
From Verif Require Import Base BaseLemmas UpdatersModel UpdatersSpec UpdatersProofs UpdatersProofs2
  UpdatersProofs3 UpdatersProofs4 UpdatersProofs5 UpdatersExamples.
Open Scope R_scope.

Example argsort_ok_satisfiable : argsort_ok my_argsort.
Proof. exact my_argsort_ok. Qed.

(** ** C01 *)
Theorem C01_weights_simplex : forall argsort, argsort_ok argsort ->
  forall costs m e, costs <> [] -> ~ In (CVec []) costs -> admissible m e (length costs) ->
  exists w, costs_to_weights argsort costs m e = Ok w /\ simplex (length costs) w.
Proof. exact weights_admissible_ok. Qed.
Print Assumptions C01_weights_simplex.
Example C01_case : ex_costs <> [] /\ ~ In (CVec []) ex_costs /\
  admissible "CMA-ES" (EInt 2) (length ex_costs).
Proof. repeat split; try apply ex_no_empty; try discriminate; apply (ex_adm _ _ (or_intror eq_refl)). Qed.

(** Whatever the arguments: a finite result for a non-empty cost list is a probability vector. *)
Theorem C01_any_result_is_simplex : forall argsort, argsort_ok argsort ->
  forall costs m e w, costs <> [] ->
  costs_to_weights argsort costs m e = Ok w -> simplex (length costs) w.
Proof. exact weights_simplex_if_ok. Qed.
Print Assumptions C01_any_result_is_simplex.

(** ** C02 *)
Theorem C02_failure_table : forall argsort, argsort_ok argsort ->
  forall costs m e, failure_table costs m e (costs_to_weights argsort costs m e).
Proof. exact weights_failures. Qed.
Print Assumptions C02_failure_table.
Example C02_case_index : costs_to_weights my_argsort ex_costs "CMA-ES" (EInt 4) = Err IndexError.
Proof.
  apply (C02_failure_table my_argsort my_argsort_ok). right; split; [reflexivity|].
  exists 4%Z; split; [reflexivity|cbn; lia].
Qed.

(** ** C03 *)
Theorem C03_pibb_monotone : forall argsort costs cs m e w i j,
  ~ rank_method m -> totals costs cs -> 0 <= elit_R e ->
  costs_to_weights argsort costs m e = Ok w ->
  (i < length cs)%nat -> (j < length cs)%nat ->
  (nth i cs 0 <= nth j cs 0 -> nth j w 0 <= nth i w 0) /\
  (nth i cs 0 = nth j cs 0 -> nth j w 0 = nth i w 0) /\
  (0 < elit_R e -> nth i cs 0 < nth j cs 0 -> nth j w 0 < nth i w 0).
Proof. exact pibb_monotone. Qed.
Print Assumptions C03_pibb_monotone.
Theorem C03_rank_monotone : forall argsort, argsort_ok argsort ->
  forall costs cs m e w i j,
  rank_method m -> totals costs cs ->
  costs_to_weights argsort costs m e = Ok w ->
  (i < length cs)%nat -> (j < length cs)%nat ->
  nth i cs 0 < nth j cs 0 -> nth j w 0 <= nth i w 0.
Proof. exact rank_monotone. Qed.
Print Assumptions C03_rank_monotone.
Example C03_case : totals ex_costs [3; 1; 2] /\
  (exists w, costs_to_weights my_argsort ex_costs "PI-BB" (EInt 10) = Ok w) /\
  (exists w, costs_to_weights my_argsort ex_costs "CEM" (EInt 2) = Ok w).
Proof. repeat split; [exact ex_totals|apply ex_weights_ok; auto|apply ex_weights_ok; auto]. Qed.

(** ** C04 *)
Theorem C04_pibb_affine : forall argsort m e a b cs, ~ rank_method m -> 0 < a ->
  costs_to_weights argsort (map (fun c => CScalar (a * c + b)) cs) m e =
  costs_to_weights argsort (map CScalar cs) m e.
Proof. exact pibb_affine. Qed.
Print Assumptions C04_pibb_affine.
Example C04_case : ~ rank_method "PI-BB".
Proof. intros [H|H]; discriminate. Qed.

(** ** C05 *)
Theorem C05_cem_elite : forall argsort, argsort_ok argsort ->
  forall costs cs mu w,
  totals costs cs -> costs <> [] -> (1 <= mu)%Z ->
  costs_to_weights argsort costs "CEM" (EInt mu) = Ok w ->
  let n := length cs in
  let k := Nat.min (Z.to_nat mu) n in
  exists elite : list nat,
    NoDup elite /\ length elite = k /\ (forall i, In i elite -> (i < n)%nat) /\
    (forall i, (i < n)%nat -> In i elite -> nth i w 0 = / INR k) /\
    (forall i, (i < n)%nat -> ~ In i elite -> nth i w 0 = 0) /\
    (forall i j, (i < n)%nat -> (j < n)%nat -> In i elite -> ~ In j elite ->
       nth i cs 0 <= nth j cs 0).
Proof. exact cem_elite. Qed.
Print Assumptions C05_cem_elite.
Theorem C05_cma_weights : forall argsort, argsort_ok argsort ->
  forall costs cs mu w,
  totals costs cs -> (1 <= mu <= Z.of_nat (length cs))%Z ->
  costs_to_weights argsort costs "CMA-ES" (EInt mu) = Ok w ->
  let n := length cs in
  let v := fun r : nat => ln (IZR mu + 1/2) - ln (INR (S r)) in
  exists order : list nat, sorts cs order /\ length w = n /\
    forall r, (r < n)%nat ->
      nth (nth r order 0%nat) w 0 =
      if Nat.ltb r (Z.to_nat mu) then v r / sumn (Z.to_nat mu) v else 0.
Proof. exact cma_elite. Qed.
Print Assumptions C05_cma_weights.
(** For tied costs the weights of the tied samples depend on argsort's tie order, which need not
    be the same after the transformation; hence [NoDup]. *)
Theorem C05_rank_invariance : forall argsort, argsort_ok argsort ->
  forall m e (f : R -> R) cs,
  rank_method m -> NoDup cs -> (forall x y, x < y <-> f x < f y) ->
  costs_to_weights argsort (map (fun c => CScalar (f c)) cs) m e =
  costs_to_weights argsort (map CScalar cs) m e.
Proof. exact rank_monotone_invariant. Qed.
Print Assumptions C05_rank_invariance.
Example C05_case : totals ex_costs [3; 1; 2] /\ NoDup [3; 1; 2] /\
  (exists w, costs_to_weights my_argsort ex_costs "CEM" (EInt 2) = Ok w) /\
  (exists w, costs_to_weights my_argsort ex_costs "CMA-ES" (EInt 2) = Ok w) /\
  (forall x y, x < y <-> 2 * x + 1 < 2 * y + 1).
Proof.
  split; [exact ex_totals|]. split; [exact ex_distinct|].
  repeat split; try (apply ex_weights_ok; auto); lra.
Qed.

(** ** C06 *)
Theorem C06_only_total_cost : forall argsort costs costs' m e,
  Forall2 (fun c c' => exists r, has_total c r /\ has_total c' r) costs costs' ->
  costs_to_weights argsort costs m e = costs_to_weights argsort costs' m e.
Proof. exact same_totals. Qed.
Print Assumptions C06_only_total_cost.
Example C06_case : Forall2 (fun c c' => exists r, has_total c r /\ has_total c' r)
  [CVec [3; 1; 2]; CScalar 1] [CScalar 3; CVec [1; 7]].
Proof.
  constructor; [exists 3; split; [right; eauto|now left]|].
  constructor; [exists 1; split; [now left|right; eauto]|constructor].
Qed.

(** ** C07 *)
Theorem C07_weights_permutation : forall argsort, argsort_ok argsort ->
  forall costs costs' m e w,
  Permutation costs costs' -> costs <> [] ->
  (rank_method m -> exists cs, totals costs cs /\ NoDup cs) ->
  costs_to_weights argsort costs m e = Ok w ->
  exists w', costs_to_weights argsort costs' m e = Ok w' /\
    Permutation (combine costs w) (combine costs' w').
Proof. exact weights_permutation. Qed.
Print Assumptions C07_weights_permutation.
Theorem C07_update_permutation : forall argsort, argsort_ok argsort ->
  forall u d n (ps ps' : list (list R * cost)) d' w,
  Permutation ps ps' ->
  (rank_method (u_method u) -> exists cs, totals (map snd ps) cs /\ NoDup cs) ->
  update_distribution argsort u d (Mat n (map fst ps)) (map snd ps) = Ok (d', w) ->
  exists w', update_distribution argsort u d (Mat n (map fst ps')) (map snd ps') = Ok (d', w') /\
    Permutation (combine ps w) (combine ps' w').
Proof. exact update_permutation. Qed.
Print Assumptions C07_update_permutation.
Example C07_case : let ps := combine (mrows ex_samples) ex_costs in
  Permutation ps (rev ps) /\ (exists cs, totals (map snd ps) cs /\ NoDup cs) /\
  exists d' w, update_distribution my_argsort (UAdapt ex_adapt) ex_dist
                 (Mat 2 (map fst ps)) (map snd ps) = Ok (d', w).
Proof.
  split; [apply Permutation_rev|]. split; [exists [3; 1; 2]; split; [exact ex_totals|exact ex_distinct]|].
  exact ex_adapt_ok.
Qed.

(** ** C08 *)
Theorem C08_mean_is_weighted_average : forall argsort, argsort_ok argsort ->
  forall u d samples costs d' w,
  update_distribution argsort u d samples costs = Ok (d', w) ->
  simplex (nrows samples) w /\ length costs = nrows samples /\
  length (d_mean d') = mcols samples /\
  forall j, (j < mcols samples)%nat ->
    nth j (d_mean d') 0 = sumn (nrows samples) (fun i => nth i w 0 * mget samples i j).
Proof. exact update_mean_formula. Qed.
Print Assumptions C08_mean_is_weighted_average.
Theorem C08_mean_in_every_box : forall argsort, argsort_ok argsort ->
  forall u d samples costs d' w j lo hi,
  update_distribution argsort u d samples costs = Ok (d', w) ->
  (j < mcols samples)%nat ->
  (forall i, (i < nrows samples)%nat -> lo <= mget samples i j <= hi) ->
  lo <= nth j (d_mean d') 0 <= hi.
Proof. exact update_mean_in_box. Qed.
Print Assumptions C08_mean_in_every_box.
(** Updates succeed on all documented inputs. *)
Theorem C08_update_succeeds : forall argsort, argsort_ok argsort ->
  forall u d samples costs,
  (forall a, u <> UAdapt a) ->
  costs <> [] -> ~ In (CVec []) costs -> admissible (u_method u) (u_elit u) (length costs) ->
  nrows samples = length costs ->
  exists d' w, update_distribution argsort u d samples costs = Ok (d', w).
Proof. exact update_mean_decay_ok. Qed.
Print Assumptions C08_update_succeeds.
Theorem C08_adaptation_succeeds : forall argsort, argsort_ok argsort ->
  forall u d samples costs,
  let n := mcols samples in
  costs <> [] -> ~ In (CVec []) costs -> admissible (ca_method u) (ca_elit u) (length costs) ->
  nrows samples = length costs -> length (d_mean d) = n -> square n (d_covar d) ->
  level_fits (ca_max u) n -> level_fits (ca_min u) n ->
  exists d' w, update_distribution argsort (UAdapt u) d samples costs = Ok (d', w).
Proof. exact update_adapt_ok. Qed.
Print Assumptions C08_adaptation_succeeds.
Example C08_case : exists d' w,
  update_distribution my_argsort (UMean "CEM" (EInt 2)) ex_dist ex_samples ex_costs = Ok (d', w).
Proof. apply ex_update_ok; [reflexivity|discriminate]. Qed.

(** ** C09 *)
Theorem C09_mean_updates_keep_covariance : forall argsort m e d hist d',
  update_history argsort (UMean m e) d hist = Ok d' -> d_covar d' = d_covar d.
Proof. exact mean_history_covar. Qed.
Print Assumptions C09_mean_updates_keep_covariance.
Theorem C09_updates_keep_bounds : forall argsort u d hist d',
  update_history argsort u d hist = Ok d' -> d_bounds d' = d_bounds d.
Proof. exact update_history_bounds. Qed.
Print Assumptions C09_updates_keep_bounds.
Example C09_case : exists d',
  update_history my_argsort (UMean "CEM" (EInt 2)) ex_dist [(ex_samples, ex_costs)] = Ok d'.
Proof. destruct C08_case as (d' & w & H). exists d'. exact (history_one _ _ _ _ _ _ _ H). Qed.

(** ** C10 *)
Theorem C10_decay_geometric : forall argsort m e dc d hist d',
  update_history argsort (UDecay m e dc) d hist = Ok d' ->
  d_covar d' = mscal (dc ^ (2 * length hist)) (d_covar d).
Proof. exact decay_history. Qed.
Print Assumptions C10_decay_geometric.
Example C10_case : exists d',
  update_history my_argsort (UDecay "CEM" (EInt 2) (8/10)) ex_dist [(ex_samples, ex_costs)] = Ok d'.
Proof.
  destruct (ex_update_ok (UDecay "CEM" (EInt 2) (8/10)) eq_refl ltac:(discriminate)) as (d' & w & H).
  exists d'. exact (history_one _ _ _ _ _ _ _ H).
Qed.

(** ** C11 *)
Theorem C11_adaptation_formula : forall argsort, argsort_ok argsort ->
  forall u d samples costs d' w,
  let n := mcols samples in
  mat_wf samples -> (ca_lr u < 1 -> square n (d_covar d)) -> 0 <= ca_lr u <= 1 ->
  update_distribution argsort (UAdapt u) d samples costs = Ok (d', w) ->
  length (d_mean d) = n /\ square n (d_covar d') /\
  (forall i j, (i < n)%nat -> (j < n)%nat -> i <> j ->
     mget (d_covar d') i j = adapted u d samples w i j) /\
  (forall i, (i < n)%nat -> clamped u i (adapted u d samples w i i) (mget (d_covar d') i i)).
Proof. exact adapt_full. Qed.
Print Assumptions C11_adaptation_formula.
Theorem C11_adaptation_symmetric : forall argsort, argsort_ok argsort ->
  forall u d samples costs d' w,
  let n := mcols samples in
  mat_wf samples -> (ca_lr u < 1 -> square n (d_covar d) /\ symmetric n (d_covar d)) ->
  0 <= ca_lr u <= 1 ->
  update_distribution argsort (UAdapt u) d samples costs = Ok (d', w) ->
  symmetric n (d_covar d').
Proof. exact adapt_symmetric. Qed.
Print Assumptions C11_adaptation_symmetric.
Theorem C11_learning_rate_zero : forall argsort, argsort_ok argsort ->
  forall u d samples costs d' w,
  let n := mcols samples in
  mat_wf samples -> square n (d_covar d) -> ca_lr u = 0 -> ca_max u = None -> ca_min u = None ->
  update_distribution argsort (UAdapt u) d samples costs = Ok (d', w) ->
  d_covar d' = d_covar d.
Proof. exact adapt_lr0. Qed.
Print Assumptions C11_learning_rate_zero.
Theorem C11_learning_rate_check : forall u,
  (mk_covar_adapt u = Ok u <-> 0 <= ca_lr u <= 1) /\
  (mk_covar_adapt u = Err ValueError <-> ~ (0 <= ca_lr u <= 1)).
Proof. exact mk_covar_adapt_spec. Qed.
Print Assumptions C11_learning_rate_check.
Example C11_case : mat_wf ex_samples /\ square 2 (d_covar ex_dist) /\
  symmetric 2 (d_covar ex_dist) /\ 0 <= ca_lr ex_adapt <= 1 /\
  exists d' w, update_distribution my_argsort (UAdapt ex_adapt) ex_dist ex_samples ex_costs = Ok (d', w).
Proof.
  split; [exact ex_wf|]. split; [exact ex_square|]. split; [apply ex_psd|].
  split; [cbn; lra|exact ex_adapt_ok].
Qed.

(** ** C12: the full property is false with diagonal_max; true without it, and with diag_only. *)
Theorem C12_psd_refuted : forall argsort, argsort_ok argsort ->
  psd 2 (d_covar ex_dist) /\ exists d' w,
    update_distribution argsort (UAdapt bad_adapt) ex_dist (Mat 2 [[1; 1]]) [CScalar 0] = Ok (d', w) /\
    ~ psd 2 (d_covar d').
Proof. exact (fun argsort Ha => conj ex_psd (adapt_psd_refuted argsort Ha)). Qed.
Print Assumptions C12_psd_refuted.
(** missing: nothing beyond the excluded case diagonal_max with full matrices, refuted above. *)
Theorem C12_psd_partial : forall argsort, argsort_ok argsort ->
  forall u d samples costs d' w,
  let n := mcols samples in
  mat_wf samples -> 0 <= ca_lr u <= 1 ->
  (ca_lr u < 1 -> square n (d_covar d) /\ psd n (d_covar d)) ->
  (ca_max u = None \/
   (ca_diag_only u = true /\
    (ca_lr u < 1 -> forall i j, (i < n)%nat -> (j < n)%nat -> i <> j -> mget (d_covar d) i j = 0))) ->
  update_distribution argsort (UAdapt u) d samples costs = Ok (d', w) ->
  square n (d_covar d') /\ psd n (d_covar d').
Proof. exact adapt_psd. Qed.
Print Assumptions C12_psd_partial.
Theorem C12_psd_history_partial : forall argsort, argsort_ok argsort ->
  forall u n d hist d',
  0 <= ca_lr u <= 1 -> ca_max u = None -> hist_ok n hist ->
  square n (d_covar d) -> psd n (d_covar d) ->
  update_history argsort (UAdapt u) d hist = Ok d' ->
  square n (d_covar d') /\ psd n (d_covar d').
Proof. exact adapt_history_psd. Qed.
Print Assumptions C12_psd_history_partial.
Example C12_case : 0 <= ca_lr ex_adapt <= 1 /\ ca_max ex_adapt = None /\
  hist_ok 2 [(ex_samples, ex_costs)] /\ square 2 (d_covar ex_dist) /\ psd 2 (d_covar ex_dist) /\
  exists d', update_history my_argsort (UAdapt ex_adapt) ex_dist [(ex_samples, ex_costs)] = Ok d'.
Proof.
  split; [cbn; lra|]. split; [reflexivity|].
  split; [constructor; [split; [exact ex_wf|reflexivity]|constructor]|].
  split; [exact ex_square|]. split; [exact ex_psd|].
  destruct ex_adapt_ok as (d' & w & H). exists d'. exact (history_one _ _ _ _ _ _ _ H).
Qed.

(** ** C13 *)
Theorem C13_diagonal_bounds : forall argsort, argsort_ok argsort ->
  forall u n d hist d' i,
  0 <= ca_lr u <= 1 -> hist_ok n hist -> square n (d_covar d) -> hist <> [] ->
  update_history argsort (UAdapt u) d hist = Ok d' -> (i < n)%nat ->
  (forall lv, ca_min u = Some lv ->
     exists m, level_value lv i = Some m /\ m ^ 2 <= mget (d_covar d') i i) /\
  (forall lv, ca_max u = Some lv ->
     exists m, level_value lv i = Some m /\
       ((forall lv' m', ca_min u = Some lv' -> level_value lv' i = Some m' -> m' ^ 2 <= m ^ 2) ->
        mget (d_covar d') i i <= m ^ 2)).
Proof. exact adapt_history_bounds. Qed.
Print Assumptions C13_diagonal_bounds.
Example C13_case := C12_case.

(** ** C14 *)
Theorem C14_translation : forall argsort u d samples costs v d' w,
  mat_wf samples -> length v = mcols samples -> length (d_mean d) = mcols samples ->
  update_distribution argsort u d samples costs = Ok (d', w) ->
  update_distribution argsort u (Dist (shift_row v (d_mean d)) (d_covar d) (d_bounds d))
      (shift_mat v samples) costs =
  Ok (Dist (shift_row v (d_mean d')) (d_covar d') (d_bounds d'), w).
Proof. exact update_translation. Qed.
Print Assumptions C14_translation.
Example C14_case : mat_wf ex_samples /\ length [5; 7] = mcols ex_samples /\
  length (d_mean ex_dist) = mcols ex_samples.
Proof. split; [exact ex_wf|split; reflexivity]. Qed.

(** ** C15 *)
Theorem C15_dimension_check : forall mean covar bounds v, vec_of mean v ->
  let rows := nrows (atleast_2d covar) in
  (length v = rows -> mk_dist mean covar bounds = Ok (Dist v (atleast_2d covar) bounds)) /\
  (length v <> rows -> mk_dist mean covar bounds = Err ValueError).
Proof. exact mk_dist_spec. Qed.
Print Assumptions C15_dimension_check.
Example C15_case : vec_of (NScal 3) [3] /\ vec_of (NVec [1; 2]) [1; 2].
Proof. split; [right; eauto|now left]. Qed.

(** ** C16 *)
Theorem C16_samples_within_bounds : forall rng d n lo up s,
  d_bounds d = Some (lo, up) ->
  (forall j l u, bound_at lo j = Some l -> bound_at up j = Some u -> l <= u) ->
  mat_wf (rng (d_mean d) (d_covar d) n) ->
  generate_samples rng d n = Ok s ->
  let raw := rng (d_mean d) (d_covar d) n in
  mat_wf s /\ nrows s = nrows raw /\ mcols s = mcols raw /\
  forall i j, (i < nrows s)%nat -> (j < mcols s)%nat ->
    above lo j (mget s i j) /\ below up j (mget s i j) /\
    (above lo j (mget raw i j) -> below up j (mget raw i j) -> mget s i j = mget raw i j).
Proof. exact generate_bounded. Qed.
Print Assumptions C16_samples_within_bounds.
Example C16_case : exists s,
  generate_samples (fun _ _ _ => Mat 2 [[0; 5]]) (Dist [0; 0] (Mat 2 [[1;0];[0;1]])
     (Some (BScal 1, BArr [2; 3]))) 1 = Ok s /\
  (forall j l u, bound_at (BScal 1) j = Some l -> bound_at (BArr [2; 3]) j = Some u -> l <= u).
Proof.
  eexists; split; [reflexivity|]. intros [|[|j]] l u; cbn; intros H H'; injection H as <-;
   try (injection H' as <-; lra). destruct j; discriminate.
Qed.
