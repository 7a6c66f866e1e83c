From Coq Require Import String.
From Verif Require Import Base BaseLemmas UpdatersModel UpdatersSpec UpdatersProofs UpdatersProofs2
  UpdatersProofs3 UpdatersProofs4.
Open Scope R_scope.

Section Upd.
Variable argsort : list R -> list nat.
Hypothesis Ha : argsort_ok argsort.


Lemma adapt_history_psd u n d hist d' :
  0 <= ca_lr u <= 1 -> ca_max u = None -> hist_ok n hist ->
  square n (d_covar d) -> psd n (d_covar d) ->
  update_history argsort (UAdapt u) d hist = Ok d' ->
  square n (d_covar d') /\ psd n (d_covar d').
Proof.
  intros Hlr Hmax. revert d; induction hist as [|[s c] hist IH]; intros d Hh Hsq Hpsd H.
  - injection H as <-. auto.
  - cbn [update_history update_distribution] in H. inversion Hh as [|? ? [Hwf Hcol] Hh']; subst.
    cbn [fst] in *.
    destruct (update_covar_adapt argsort u d s c) as [[d1 w]|] eqn:E; cbn [bind fst] in H; [|discriminate].
    destruct (adapt_psd argsort Ha u d s c d1 w) as [S1 P1]; auto. now apply (IH d1).
Qed.

Lemma adapt_history_square u n d hist d' :
  0 <= ca_lr u <= 1 -> hist_ok n hist -> square n (d_covar d) ->
  update_history argsort (UAdapt u) d hist = Ok d' -> square n (d_covar d').
Proof.
  intros Hlr. revert d; induction hist as [|[s c] hist IH]; intros d Hh Hsq H.
  - injection H as <-. auto.
  - cbn [update_history update_distribution] in H. inversion Hh as [|? ? [Hwf Hcol] Hh']; subst.
    cbn [fst] in *.
    destruct (update_covar_adapt argsort u d s c) as [[d1 w]|] eqn:E; cbn [bind fst] in H; [|discriminate].
    destruct (adapt_full argsort Ha u d s c d1 w) as (_ & S1 & _); auto. now apply (IH d1).
Qed.

Lemma update_history_snoc u d hist s c d' :
  update_history argsort u d (hist ++ [(s, c)]) = Ok d' ->
  exists d1 w, update_history argsort u d hist = Ok d1 /\
    update_distribution argsort u d1 s c = Ok (d', w).
Proof.
  revert d; induction hist as [|[s0 c0] hist IH]; intros d H.
  - cbn [update_history app] in *.
    destruct (update_distribution argsort u d s c) as [[d1 w]|] eqn:E; cbn in H; [|discriminate].
    injection H as <-. eauto.
  - cbn [update_history app] in *.
    destruct (update_distribution argsort u d s0 c0) as [[d1 w]|] eqn:E; cbn [bind] in *; [|discriminate].
    now apply IH in H.
Qed.

Lemma adapt_history_bounds u n d hist d' i :
  0 <= ca_lr u <= 1 -> hist_ok n hist -> square n (d_covar d) -> hist <> [] ->
  update_history argsort (UAdapt u) d hist = Ok d' -> (i < n)%nat ->
  (forall lv, ca_min u = Some lv ->
     exists m, level_value lv i = Some m /\ m ^ 2 <= mget (d_covar d') i i) /\
  (forall lv, ca_max u = Some lv ->
     exists m, level_value lv i = Some m /\
       ((forall lv' m', ca_min u = Some lv' -> level_value lv' i = Some m' -> m' ^ 2 <= m ^ 2) ->
        mget (d_covar d') i i <= m ^ 2)).
Proof.
  intros Hlr Hh Hsq Hne H Hi. destruct (exists_last Hne) as (hist' & [s c] & ->).
  apply update_history_snoc in H. destruct H as (d1 & w & H1 & H2).
  unfold hist_ok in Hh. apply Forall_app in Hh. destruct Hh as [Hh' Hlast].
  inversion Hlast as [|? ? [Hwf Hcol] _]; subst. cbn [fst] in *.
  assert (Hsq1 := adapt_history_square u (mcols s) d hist' d1 Hlr Hh' Hsq H1).
  exact (adapt_diag_bounds argsort Ha u d1 s c d' w i Hwf Hlr (fun _ => Hsq1) H2 Hi).
Qed.

(** ** translation *)
Lemma shift_row_length v row : length row = length v -> length (shift_row v row) = length v.
Proof. intros H. unfold shift_row. rewrite map2_length, H. apply Nat.min_id. Qed.

Lemma shift_row_nth v row j : length row = length v -> (j < length v)%nat ->
  nth j (shift_row v row) 0 = nth j row 0 + nth j v 0.
Proof. intros H Hj. unfold shift_row. apply nth_map2; lia. Qed.

Lemma map2_minus_shift v row mean :
  length row = length v -> length mean = length v ->
  map2 Rminus (shift_row v row) (shift_row v mean) = map2 Rminus row mean.
Proof.
  unfold shift_row. revert v mean; induction row as [|x row IH]; intros [|y v] [|z mean]; cbn;
    intros H1 H2; try discriminate; [reflexivity|].
  f_equal; [ring|]. apply IH; congruence.
Qed.

Lemma mget_shift v m i j : mat_wf m -> length v = mcols m -> (i < nrows m)%nat -> (j < mcols m)%nat ->
  mget (shift_mat v m) i j = mget m i j + nth j v 0.
Proof.
  intros Hwf Hv Hi Hj. unfold mget, shift_mat. cbn [mrows]. rewrite (nth_map_lt _ _ _ []) by exact Hi.
  apply shift_row_nth; [|lia]. rewrite mat_wf_row by auto. lia.
Qed.

Lemma average_rows_shift v samples w m : mat_wf samples -> length v = mcols samples ->
  average_rows samples w = Ok m -> average_rows (shift_mat v samples) w = Ok (shift_row v m).
Proof.
  intros Hwf Hv. unfold average_rows. unfold nrows, shift_mat at 1. cbn [mrows]. rewrite map_length.
  destruct (Nat.eqb_spec (length w) (length (mrows samples))) as [Hl|]; cbn [negb]; [|discriminate].
  destruct (Req_EM_T (rsum w) 0) as [|Hs]; [discriminate|]. intros E. injection E as <-. f_equal.
  cbn [shift_mat mcols mrows].
  apply (nth_ext _ _ 0 0).
  { rewrite shift_row_length; rewrite !map_length, !seq_length; auto. }
  rewrite map_length, seq_length. intros j Hj. rewrite nth_map_seq by exact Hj.
  rewrite shift_row_nth; [|now rewrite map_length, seq_length|lia]. rewrite nth_map_seq by exact Hj.
  set (N := length w) in *.
  rewrite (rsum_map2_sumn _ _ _ N 0 []) by (auto; now rewrite map_length).
  rewrite (rsum_map2_sumn _ _ (mrows samples) N 0 []) by auto.
  rewrite (sumn_ext N _ (fun s => nth s w 0 * nth j (nth s (mrows samples) []) 0 + nth s w 0 * nth j v 0)).
  - rewrite sumn_plus, sumn_scal_r. unfold N at 2. rewrite <- rsum_nth. field. exact Hs.
  - intros s Hsl. rewrite (nth_map_lt _ _ _ []) by lia. rewrite shift_row_nth; [ring| |lia].
    rewrite (mat_wf_row samples); [lia|exact Hwf|unfold nrows; lia].
Qed.

Lemma scatter_shift v mean samples w : mat_wf samples -> length v = mcols samples ->
  length mean = mcols samples ->
  scatter (shift_row v mean) (shift_mat v samples) w = scatter mean samples w.
Proof.
  intros Hwf Hv Hm. unfold scatter. cbn [shift_mat mcols mrows]. rewrite map_map.
  assert (E : map (fun row => map2 Rminus (shift_row v row) (shift_row v mean)) (mrows samples) =
              map (fun row => map2 Rminus row mean) (mrows samples)).
  { apply map_ext_in. intros row Hr. apply map2_minus_shift; [|lia].
    unfold mat_wf in Hwf. rewrite Forall_forall in Hwf. rewrite Hwf by exact Hr. lia. }
  now rewrite E.
Qed.

Lemma update_translation u d samples costs v d' w :
  mat_wf samples -> length v = mcols samples -> length (d_mean d) = mcols samples ->
  update_distribution argsort u d samples costs = Ok (d', w) ->
  update_distribution argsort u (Dist (shift_row v (d_mean d)) (d_covar d) (d_bounds d))
      (shift_mat v samples) costs =
  Ok (Dist (shift_row v (d_mean d')) (d_covar d') (d_bounds d'), w).
Proof.
  intros Hwf Hv Hmean. destruct u as [m e|m e dc|a]; cbn [update_distribution].
  - unfold update_mean. destruct (costs_to_weights _ _ _ _) as [w'|]; cbn [bind]; [|discriminate].
    destruct (average_rows samples w') as [mn|] eqn:E; cbn [bind]; [|discriminate].
    rewrite (average_rows_shift v _ _ _ Hwf Hv E). cbn [bind]. intros H; injection H as <- <-; reflexivity.
  - unfold update_covar_decay. destruct (costs_to_weights _ _ _ _) as [w'|]; cbn [bind]; [|discriminate].
    destruct (average_rows samples w') as [mn|] eqn:E; cbn [bind]; [|discriminate].
    rewrite (average_rows_shift v _ _ _ Hwf Hv E). cbn [bind]. intros H; injection H as <- <-; reflexivity.
  - unfold update_covar_adapt.
    destruct (costs_to_weights _ _ _ _) as [w'|]; cbn [bind]; [|discriminate].
    destruct (average_rows samples w') as [mn|] eqn:E; cbn [bind]; [|discriminate].
    rewrite (average_rows_shift v _ _ _ Hwf Hv E). cbn [bind d_mean d_covar d_bounds].
    rewrite scatter_shift by assumption. rewrite shift_row_length by lia.
    cbn [shift_mat mcols]. rewrite Hv, Hmean. rewrite !Nat.eqb_refl. cbn [negb].
    match goal with |- (let* c3 := ?x in _) = _ -> _ => destruct x as [c3|]; cbn [bind]; [|discriminate] end.
    match goal with |- (let* c4 := ?x in _) = _ -> _ => destruct x as [c4|]; cbn [bind]; [|discriminate] end.
    match goal with |- (let* c5 := ?x in _) = _ -> _ => destruct x as [c5|]; cbn [bind]; [|discriminate] end.
    intros H; injection H as <- <-; reflexivity.
Qed.

(** ** permutations of samples *)
Definition tot (c : cost) : R := match first_cost c with Ok r => r | Err _ => 0 end.

Lemma totals_tot costs : ~ In (CVec []) costs -> totals costs (map tot costs).
Proof.
  induction costs as [|c costs IH]; cbn; intros H; constructor.
  - unfold tot. destruct (first_cost c) as [r|] eqn:E; [now apply first_cost_total|].
    destruct c as [|[|]]; cbn in E; try discriminate. exfalso; apply H; now left.
  - apply IH. intros Hin; apply H; now right.
Qed.

Lemma rsum_map2_perm {A B} (f : A -> B -> R) l m l' m' :
  Permutation (combine l m) (combine l' m') -> rsum (map2 f l m) = rsum (map2 f l' m').
Proof. intros H. rewrite !map2_combine. apply rsum_perm. now apply Permutation_map. Qed.

Lemma combine_map_fst {A B} (l : list A) (m : list B) : length l = length m -> map fst (combine l m) = l.
Proof. revert m; induction l as [|x l IH]; intros [|y m]; cbn; intros H; try discriminate; auto. f_equal; auto. Qed.

Lemma average_rows_perm n rows rows' w w' :
  length w = length rows -> length w' = length rows' ->
  Permutation (combine w rows) (combine w' rows') ->
  average_rows (Mat n rows) w = average_rows (Mat n rows') w'.
Proof.
  intros H1 H2 Hp. unfold average_rows, nrows. cbn [mrows mcols].
  rewrite H1, H2, !Nat.eqb_refl. cbn [negb].
  assert (Hs : rsum w = rsum w').
  { apply rsum_perm. rewrite <- (combine_map_fst w rows), <- (combine_map_fst w' rows') by auto.
    now apply Permutation_map. }
  rewrite Hs. destruct (Req_EM_T (rsum w') 0); [reflexivity|]. f_equal. apply map_ext. intros j.
  now rewrite (rsum_map2_perm _ _ _ _ _ Hp).
Qed.

Lemma scatter_perm n mean rows rows' w w' :
  Permutation (combine w rows) (combine w' rows') ->
  scatter mean (Mat n rows) w = scatter mean (Mat n rows') w'.
Proof.
  intros Hp. unfold scatter. cbn [mrows mcols]. unfold mtab. f_equal.
  apply map_ext. intros i. apply map_ext. intros j. apply rsum_map2_perm.
  assert (E : forall (l : list R) (m : list (list R)),
     combine l (map (fun row => map2 Rminus row mean) m) =
     map (fun p => (fst p, map2 Rminus (snd p) mean)) (combine l m)).
  { induction l as [|x l IH]; intros [|y m]; cbn; auto. now rewrite IH. }
  rewrite !E. now apply Permutation_map.
Qed.

Lemma update_perm_gen u d n rows rows' costs costs' w w' :
  length w = length rows -> length w' = length rows' ->
  costs_to_weights argsort costs (u_method u) (u_elit u) = Ok w ->
  costs_to_weights argsort costs' (u_method u) (u_elit u) = Ok w' ->
  Permutation (combine w rows) (combine w' rows') ->
  forall d', update_distribution argsort u d (Mat n rows) costs = Ok (d', w) ->
  update_distribution argsort u d (Mat n rows') costs' = Ok (d', w').
Proof.
  intros L1 L2 E1 E2 Hp d'. destruct u as [m e|m e dc|a]; cbn [update_distribution u_method u_elit] in *.
  - unfold update_mean. rewrite E1, E2. cbn [bind]. rewrite (average_rows_perm n rows rows' w w') by auto.
    destruct (average_rows (Mat n rows') w'); cbn [bind]; [|discriminate].
    intros H; injection H as <-; reflexivity.
  - unfold update_covar_decay. rewrite E1, E2. cbn [bind].
    rewrite (average_rows_perm n rows rows' w w') by auto.
    destruct (average_rows (Mat n rows') w'); cbn [bind]; [|discriminate].
    intros H; injection H as <-; reflexivity.
  - unfold update_covar_adapt. rewrite E1, E2. cbn [bind].
    rewrite (average_rows_perm n rows rows' w w') by auto.
    destruct (average_rows (Mat n rows') w'); cbn [bind]; [|discriminate].
    rewrite (scatter_perm n (d_mean d) rows rows' w w') by auto. cbn [mcols].
    destruct (negb _); [destruct (orb _ _); discriminate|].
    match goal with |- (let* c3 := ?x in _) = _ -> _ => destruct x as [c3|]; cbn [bind]; [|discriminate] end.
    match goal with |- (let* c4 := ?x in _) = _ -> _ => destruct x as [c4|]; cbn [bind]; [|discriminate] end.
    match goal with |- (let* c5 := ?x in _) = _ -> _ => destruct x as [c5|]; cbn [bind]; [|discriminate] end.
    intros H; injection H as <-; reflexivity.
Qed.

Lemma combine_map_same {A B C} (f : A -> B) (g : A -> C) l :
  combine (map f l) (map g l) = map (fun a => (f a, g a)) l.
Proof. induction l as [|a l IH]; cbn; [reflexivity|now rewrite IH]. Qed.

Lemma update_permutation u d n (ps ps' : list (list R * cost)) d' w :
  Permutation ps ps' ->
  (rank_method (u_method u) -> exists cs, totals (map snd ps) cs /\ NoDup cs) ->
  update_distribution argsort u d (Mat n (map fst ps)) (map snd ps) = Ok (d', w) ->
  exists w', update_distribution argsort u d (Mat n (map fst ps')) (map snd ps') = Ok (d', w') /\
    Permutation (combine ps w) (combine ps' w').
Proof.
  intros Hp Hnd H.
  assert (Hne := update_nonempty argsort Ha _ _ _ _ _ _ H).
  destruct (update_inv _ _ _ _ _ _ _ H) as (Ew & _ & _).
  assert (Nem : ~ In (CVec []) (map snd ps)).
  { intros Hin. rewrite ctw_empty_entry in Ew by exact Hin. discriminate. }
  assert (Hp2 : Permutation (map snd ps) (map snd ps')) by now apply Permutation_map.
  assert (Nem' : ~ In (CVec []) (map snd ps')).
  { intros Hin. apply Nem. now apply (Permutation_in _ (Permutation_sym Hp2)). }
  assert (T := totals_tot _ Nem). assert (T' := totals_tot _ Nem').
  set (cs := map tot (map snd ps)) in *. set (cs' := map tot (map snd ps')) in *.
  assert (Hpc : Permutation cs cs') by now apply Permutation_map.
  assert (Hnd1 : rank_method (u_method u) -> NoDup cs).
  { intros Hr. destruct (Hnd Hr) as (c0 & T0 & N0). now rewrite (totals_det _ _ _ T T0). }
  assert (Hnd2 : rank_method (u_method u) -> NoDup cs').
  { intros Hr. eapply Permutation_NoDup; [exact Hpc|auto]. }
  assert (Hne' : map snd ps' <> []).
  { intros E. rewrite E in Hp2. symmetry in Hp2. apply Permutation_nil in Hp2. contradiction. }
  destruct (ctw_outcome_shape argsort Ha (map snd ps) (map snd ps') (u_method u) (u_elit u)) as [w' Ew'];
    auto.
  { now apply Permutation_length. }
  { eauto. }
  assert (Fw := ctw_fun_correct argsort Ha _ _ _ _ _ T Hne Hnd1 Ew).
  assert (Fw' := ctw_fun_correct argsort Ha _ _ _ _ _ T' Hne' Hnd2 Ew').
  set (g := ctw_fun (u_method u) (u_elit u) cs) in *.
  assert (Hw1 : w = map (fun p => g (tot (snd p))) ps).
  { rewrite Fw. unfold cs. now rewrite !map_map. }
  assert (Hw2 : w' = map (fun p => g (tot (snd p))) ps').
  { rewrite Fw'. transitivity (map g cs'); [|unfold cs'; now rewrite !map_map].
    apply map_ext. intros p. unfold g. symmetry. now apply ctw_fun_perm. }
  exists w'. split.
  - apply (update_perm_gen u d n (map fst ps) (map fst ps') (map snd ps) (map snd ps') w w'); auto.
    + rewrite Hw1, !map_length; reflexivity.
    + rewrite Hw2, !map_length; reflexivity.
    + rewrite Hw1, Hw2, !combine_map_same. now apply Permutation_map.
  - rewrite Hw1, Hw2. rewrite <- (map_id ps) at 1. rewrite <- (map_id ps') at 1.
    rewrite !combine_map_same. now apply Permutation_map.
Qed.

Lemma weights_permutation costs costs' m e w :
  Permutation costs costs' -> costs <> [] ->
  (rank_method m -> exists cs, totals costs cs /\ NoDup cs) ->
  costs_to_weights argsort costs m e = Ok w ->
  exists w', costs_to_weights argsort costs' m e = Ok w' /\
    Permutation (combine costs w) (combine costs' w').
Proof.
  intros Hp Hne Hnd Ew.
  assert (Nem : ~ In (CVec []) costs).
  { intros Hin. rewrite ctw_empty_entry in Ew by exact Hin. discriminate. }
  assert (Nem' : ~ In (CVec []) costs').
  { intros Hin. apply Nem. now apply (Permutation_in _ (Permutation_sym Hp)). }
  assert (T := totals_tot _ Nem). assert (T' := totals_tot _ Nem').
  set (cs := map tot costs) in *. set (cs' := map tot costs') in *.
  assert (Hpc : Permutation cs cs') by now apply Permutation_map.
  assert (Hnd1 : rank_method m -> NoDup cs).
  { intros Hr. destruct (Hnd Hr) as (c0 & T0 & N0). now rewrite (totals_det _ _ _ T T0). }
  assert (Hnd2 : rank_method m -> NoDup cs').
  { intros Hr. eapply Permutation_NoDup; [exact Hpc|auto]. }
  assert (Hne' : costs' <> []).
  { intros ->. symmetry in Hp. apply Permutation_nil in Hp. contradiction. }
  destruct (ctw_outcome_shape argsort Ha costs costs' m e) as [w' Ew']; auto.
  { now apply Permutation_length. } { eauto. }
  assert (Fw := ctw_fun_correct argsort Ha _ _ _ _ _ T Hne Hnd1 Ew).
  assert (Fw' := ctw_fun_correct argsort Ha _ _ _ _ _ T' Hne' Hnd2 Ew').
  set (g := ctw_fun m e cs) in *.
  assert (Hw1 : w = map (fun p => g (tot p)) costs) by (rewrite Fw; unfold cs; now rewrite map_map).
  assert (Hw2 : w' = map (fun p => g (tot p)) costs').
  { rewrite Fw'. transitivity (map g cs'); [|unfold cs'; now rewrite map_map].
    apply map_ext. intros p. unfold g. symmetry. now apply ctw_fun_perm. }
  exists w'. split; [exact Ew'|]. rewrite Hw1, Hw2. rewrite <- (map_id costs) at 1.
  rewrite <- (map_id costs') at 1. rewrite !combine_map_same. now apply Permutation_map.
Qed.

(** ** success of updates *)
Lemma update_mean_decay_ok u d samples costs :
  (forall a, u <> UAdapt a) ->
  costs <> [] -> ~ In (CVec []) costs -> admissible (u_method u) (u_elit u) (length costs) ->
  nrows samples = length costs ->
  exists d' w, update_distribution argsort u d samples costs = Ok (d', w).
Proof.
  intros Hu Hne Hem Hadm Hn.
  destruct (weights_admissible_ok argsort Ha costs (u_method u) (u_elit u) Hne Hem Hadm) as (w & Ew & Hs).
  pose proof (average_rows_ok samples w (length costs) Hs Hn) as Ea.
  destruct u as [m e|m e dc|a]; cbn [update_distribution u_method u_elit] in *.
  - unfold update_mean. rewrite Ew; cbn [bind]. rewrite Ea; cbn [bind]. eauto.
  - unfold update_covar_decay. rewrite Ew; cbn [bind]. rewrite Ea; cbn [bind]. eauto.
  - exfalso; now apply (Hu a).
Qed.


Lemma level_at_ok lv n i : level_fits (Some lv) n -> (i < n)%nat -> exists l, level_at lv i = Ok l.
Proof.
  destruct lv as [r|a]; cbn; intros H Hi; [eauto|].
  rewrite (nth_res_ok a i 0) by lia. cbn. eauto.
Qed.

Lemma clamp_max_ok lv n iis c : level_fits (Some lv) n -> (forall i, In i iis -> (i < n)%nat) ->
  exists c', clamp_max_loop lv iis c = Ok c'.
Proof.
  intros Hf. revert c; induction iis as [|i iis IH]; intros c H; cbn; [eauto|].
  destruct (level_at_ok lv n i Hf) as [l ->]; [apply H; now left|]. cbn. apply IH. intros; apply H; now right.
Qed.
Lemma clamp_min_ok lv n iis c : level_fits (Some lv) n -> (forall i, In i iis -> (i < n)%nat) ->
  exists c', clamp_min_loop lv iis c = Ok c'.
Proof.
  intros Hf. revert c; induction iis as [|i iis IH]; intros c H; cbn; [eauto|].
  destruct (level_at_ok lv n i Hf) as [l ->]; [apply H; now left|]. cbn. apply IH. intros; apply H; now right.
Qed.

Lemma update_adapt_ok u d samples costs :
  let n := mcols samples in
  costs <> [] -> ~ In (CVec []) costs -> admissible (ca_method u) (ca_elit u) (length costs) ->
  nrows samples = length costs -> length (d_mean d) = n -> square n (d_covar d) ->
  level_fits (ca_max u) n -> level_fits (ca_min u) n ->
  exists d' w, update_distribution argsort (UAdapt u) d samples costs = Ok (d', w).
Proof.
  intros n Hne Hem Hadm Hn Hm (_ & Hc1 & Hc2) Hmax Hmin.
  destruct (weights_admissible_ok argsort Ha costs _ _ Hne Hem Hadm) as (w & Ew & Hs).
  pose proof (average_rows_ok samples w (length costs) Hs Hn) as Ea.
  cbn [update_distribution]. unfold update_covar_adapt. rewrite Ew; cbn [bind]. rewrite Ea; cbn [bind].
  fold n. rewrite Hm, Hc1, Hc2, !Nat.eqb_refl. cbn [negb andb].
  match goal with |- context [bind ?x _] => assert (exists c3, x = Ok c3) as [c3 ->]
    by (destruct (Rlt_dec (ca_lr u) 1); eauto) end. cbn [bind].
  assert (Hin : forall i, In i (seq 0 n) -> (i < n)%nat) by (intros i Hi; apply in_seq in Hi; lia).
  match goal with |- context [bind ?x _] => assert (exists c4, x = Ok c4) as [c4 ->] end.
  { destruct (ca_max u) as [lv|]; [|eauto]. now apply clamp_max_ok with n. }
  cbn [bind].
  match goal with |- context [bind ?x _] => assert (exists c5, x = Ok c5) as [c5 ->] end.
  { destruct (ca_min u) as [lv|]; [|eauto]. now apply clamp_min_ok with n. }
  cbn [bind]. eauto.
Qed.

End Upd.

(** ** learning rate check *)
Lemma mk_covar_adapt_spec u :
  (mk_covar_adapt u = Ok u <-> 0 <= ca_lr u <= 1) /\
  (mk_covar_adapt u = Err ValueError <-> ~ (0 <= ca_lr u <= 1)).
Proof.
  unfold mk_covar_adapt. destruct (Rlt_dec 1 (ca_lr u)); [|destruct (Rlt_dec (ca_lr u) 0)];
    split; split; intros H; try discriminate; try lra; reflexivity.
Qed.


Lemma mk_dist_spec mean covar bounds v : vec_of mean v ->
  let rows := nrows (atleast_2d covar) in
  (length v = rows -> mk_dist mean covar bounds = Ok (Dist v (atleast_2d covar) bounds)) /\
  (length v <> rows -> mk_dist mean covar bounds = Err ValueError).
Proof.
  intros [->|(r & -> & ->)] rows; cbn [mk_dist length]; fold rows; split; intros H.
  - rewrite H, Nat.eqb_refl. reflexivity.
  - destruct (Nat.eqb_spec (length v) rows); [contradiction|reflexivity].
  - rewrite <- H. reflexivity.
  - destruct (Nat.eqb_spec 1 rows); [contradiction|reflexivity].
Qed.

(** ** bounded sampling *)
Lemma clip1_above lo up x : (forall l u, lo = Some l -> up = Some u -> l <= u) ->
  forall l, lo = Some l -> l <= clip1 lo up x.
Proof.
  intros H l ->. unfold clip1. destruct up as [u|].
  - apply Rmin_glb; [apply Rmax_r|now apply H].
  - apply Rmax_r.
Qed.
Lemma clip1_below lo up x : forall u, up = Some u -> clip1 lo up x <= u.
Proof. intros u ->. unfold clip1. apply Rmin_r. Qed.
Lemma clip1_id lo up x : (forall l, lo = Some l -> l <= x) -> (forall u, up = Some u -> x <= u) ->
  clip1 lo up x = x.
Proof.
  intros H1 H2. unfold clip1. destruct lo as [l|]; destruct up as [u|];
    rewrite ?(Rmax_left x l) by (apply H1; reflexivity); rewrite ?Rmin_left by (apply H2; reflexivity); reflexivity.
Qed.

Lemma above_at b j x : above b j x <-> (forall r, bound_at b j = Some r -> r <= x).
Proof.
  destruct b as [|r|[|r [|r' l]]]; cbn [above bound_at]; split; intros H; auto; try congruence;
    intros r' E; injection E as <-; auto.
Qed.
Lemma below_at b j x : below b j x <-> (forall r, bound_at b j = Some r -> x <= r).
Proof.
  destruct b as [|r|[|r [|r' l]]]; cbn [below bound_at]; split; intros H; auto; try congruence;
    intros r' E; injection E as <-; auto.
Qed.

Lemma generate_bounded rng d n lo up s :
  d_bounds d = Some (lo, up) ->
  (forall j l u, bound_at lo j = Some l -> bound_at up j = Some u -> l <= u) ->
  mat_wf (rng (d_mean d) (d_covar d) n) ->
  generate_samples rng d n = Ok s ->
  let raw := rng (d_mean d) (d_covar d) n in
  mat_wf s /\ nrows s = nrows raw /\ mcols s = mcols raw /\
  forall i j, (i < nrows s)%nat -> (j < mcols s)%nat ->
    above lo j (mget s i j) /\ below up j (mget s i j) /\
    (above lo j (mget raw i j) -> below up j (mget raw i j) -> mget s i j = mget raw i j).
Proof.
  intros Hb Hlu Hwf H raw. unfold generate_samples in H. rewrite Hb in H.
  fold raw in H, Hwf. assert (Hs : s = Mat (mcols raw)
      (map (fun row => map2 (fun j x => clip1 (bound_at lo j) (bound_at up j) x)
                            (seq 0 (mcols raw)) row) (mrows raw))).
  { unfold clip_samples in H. destruct lo, up; try discriminate H;
    match type of H with (if ?b then _ else _) = _ =>
      destruct b; [injection H as <-; reflexivity|destruct (Nat.eqb _ _); discriminate] end. }
  clear H. subst s. cbn [mcols mrows].
  assert (Hn : nrows (Mat (mcols raw) (map (fun row => map2 (fun j x => clip1 (bound_at lo j) (bound_at up j) x)
                            (seq 0 (mcols raw)) row) (mrows raw))) = nrows raw).
  { unfold nrows; cbn. apply map_length. }
  rewrite Hn. repeat split.
  1:{ unfold mat_wf in *. cbn. rewrite Forall_forall in *. intros r Hr. apply in_map_iff in Hr.
    destruct Hr as (row & <- & Hrow). rewrite map2_length, seq_length, (Hwf _ Hrow). apply Nat.min_id. }
  all: rename H into Hi, H0 into Hj.
  all: assert (Hg : mget (Mat (mcols raw) (map (fun row => map2 (fun j x => clip1 (bound_at lo j) (bound_at up j) x)
                            (seq 0 (mcols raw)) row) (mrows raw))) i j
                  = clip1 (bound_at lo j) (bound_at up j) (mget raw i j)) by
   (unfold mget; cbn [mrows]; rewrite (nth_map_lt _ _ _ []) by exact Hi;
    rewrite (nth_map2 _ _ _ _ 0%nat 0 0); [rewrite seq_nth by exact Hj; reflexivity|now rewrite seq_length|];
    rewrite mat_wf_row by assumption; exact Hj).
  all: rewrite Hg.
  - apply above_at. apply clip1_above. intros l u; apply Hlu.
  - apply below_at. apply clip1_below.
  - intros H1 H2. rewrite above_at in H1. rewrite below_at in H2. now apply clip1_id.
Qed.

Section Upd2.
Variable argsort : list R -> list nat.
Hypothesis Ha : argsort_ok argsort.

Lemma adapt_symmetric u d samples costs d' w :
  let n := mcols samples in
  mat_wf samples -> (ca_lr u < 1 -> square n (d_covar d) /\ symmetric n (d_covar d)) ->
  0 <= ca_lr u <= 1 ->
  update_covar_adapt argsort u d samples costs = Ok (d', w) ->
  symmetric n (d_covar d').
Proof.
  intros n Hwf Hs Hlr H i j Hi Hj. destruct (Nat.eq_dec i j) as [<-|Hij]; [reflexivity|].
  destruct (adapt_full argsort Ha u d samples costs d' w Hwf (fun h => proj1 (Hs h)) Hlr H)
    as (_ & _ & Hoff & _).
  rewrite !Hoff by auto. apply adapted_sym with (n := n); auto; [|lra]. intros h; apply (Hs h).
Qed.

Lemma adapt_lr0 u d samples costs d' w :
  let n := mcols samples in
  mat_wf samples -> square n (d_covar d) -> ca_lr u = 0 -> ca_max u = None -> ca_min u = None ->
  update_covar_adapt argsort u d samples costs = Ok (d', w) ->
  d_covar d' = d_covar d.
Proof.
  intros n Hwf Hs Hlr Hmax Hmin H.
  destruct (adapt_full argsort Ha u d samples costs d' w Hwf (fun _ => Hs) ltac:(lra) H)
    as (_ & Hs' & Hoff & Hdiag).
  destruct Hs as (W1 & R1 & C1), Hs' as (W2 & R2 & C2). fold n in R2, C2.
  apply mat_ext; [exact W2|exact W1|congruence|congruence|].
  rewrite R2, C2. intros i j Hi Hj.
  assert (E : mget (d_covar d') i j = adapted u d samples w i j).
  { destruct (Nat.eq_dec i j) as [<-|Hij]; [|now apply Hoff].
    destruct (Hdiag i Hi) as (x1 & A & B). rewrite Hmax in A. rewrite Hmin in B. congruence. }
  rewrite E. unfold adapted. rewrite Hlr. ring.
Qed.
End Upd2.
