(** Weighted least squares, in terms of the specification. *)
From Coq Require Import String.
From Verif Require Import Base BaseLemmas ParamModel FaModel FaSpec FaProofs FaProofs2.
Open Scope list_scope.
Open Scope R_scope.

Lemma dot_sumn d a b : length a = d -> length b = d -> dot a b = sumn d (fun j => nth j a 0 * nth j b 0).
Proof.
  intros Ha Hb. unfold dot. rewrite rsum_nth, map2_length, Ha, Hb, Nat.min_id.
  apply sumn_ext. intros j Hj. apply nth_map2; lia.
Qed.
Lemma sqnorm_sumn a : sqnorm a = sumn (length a) (fun j => (nth j a 0)^2).
Proof.
  unfold sqnorm. rewrite rsum_nth, map_length. apply sumn_ext. intros j Hj.
  now rewrite (nth_map_lt (fun x => x ^ 2) a j 0 0) by assumption.
Qed.

Definition coeff_list (u : bool) (s : list R) (o : R) : list R := if u then s ++ [o] else s.
Definition coeff_fn (u : bool) (s : list R) (o : R) : nat -> R := fun j => nth j (coeff_list u s o) 0.

Definition weights_of (w : option (list R)) (n : nat) : list R := match w with None => ones n | Some ws => ws end.

Section Lists.
Variables (u : bool) (lam : R) (m : mat) (d : nat).
Hypothesis Hwf : mat_wf m.
Hypothesis Hd : mcols m = d.

Lemma p_eq : mcols (design u m) = if u then S d else d.
Proof. destruct u; cbn; now rewrite Hd. Qed.
Lemma design_row l : (l < nrows m)%nat -> nth l (mrows (design u m)) [] = coeff_list u (nth l (mrows m) []) 1.
Proof.
  intros Hl. unfold design, coeff_list. destruct u; [|reflexivity]. cbn [with_ones mrows].
  now rewrite (nth_map_lt (fun r => r ++ [1]) (mrows m) l [] []).
Qed.
Lemma lin_list s o l : length s = d -> (u = false -> o = 0) -> (l < nrows m)%nat ->
  lin (mcols (design u m)) (mget (design u m)) (coeff_fn u s o) l = affine s o (nth l (mrows m) []).
Proof.
  intros Hs Ho Hl. unfold lin, affine.
  assert (Lr : length (nth l (mrows m) []) = d) by (rewrite <- Hd; now apply mat_wf_row).
  rewrite (dot_sumn d) by assumption. rewrite p_eq.
  assert (E : forall j, (j < d)%nat -> mget (design u m) l j * coeff_fn u s o j = nth j (nth l (mrows m) []) 0 * nth j s 0).
  { intros j Hj. unfold mget. rewrite design_row by assumption. unfold coeff_fn, coeff_list.
    destruct u; [|reflexivity]. rewrite !app_nth1 by lia. reflexivity. }
  pose proof (design_row l Hl) as Er. destruct u; cbn [sumn].
  - rewrite (sumn_ext _ _ _ E). f_equal. unfold mget. rewrite Er.
    unfold coeff_fn, coeff_list. rewrite !app_nth2 by lia. rewrite Hs, Lr, Nat.sub_diag. cbn. ring.
  - rewrite (sumn_ext _ _ _ E), Ho by reflexivity. ring.
Qed.
Lemma sq_list s o : length s = d -> (u = false -> o = 0) ->
  sumn (mcols (design u m)) (fun j => (coeff_fn u s o j)^2) = sqnorm s + o^2.
Proof.
  intros Hs Ho. rewrite p_eq, sqnorm_sumn, Hs. unfold coeff_fn, coeff_list. destruct u; cbn [sumn].
  - f_equal; [|rewrite app_nth2 by lia; rewrite Hs, Nat.sub_diag; reflexivity].
    apply sumn_ext. intros j Hj. rewrite app_nth1 by lia. reflexivity.
  - rewrite Ho by reflexivity. cbn. ring.
Qed.

Variables (w : option (list R)) (ys : list R).
Hypothesis Hn : length ys = nrows m.
Hypothesis Hw : weights_fit w (nrows m).

Lemma weights_of_nth l : (l < nrows m)%nat -> weight_fn w l = nth l (weights_of w (nrows m)) 0.
Proof. intros Hl. destruct w; [reflexivity|]. cbn. unfold ones. now rewrite (nth_indep _ 0 1), nth_repeat by (rewrite repeat_length; assumption). Qed.

Lemma objective_jfun t s o : targets_are t ys -> length s = d -> (u = false -> o = 0) ->
  objective (mrows m) ys (weights_of w (nrows m)) lam s o =
  jfun (nrows m) (mcols (design u m)) (mget (design u m)) (weight_fn w)
       (fun l => mget (targets_column t) l 0) lam (coeff_fn u s o).
Proof.
  intros Ht Hs Ho. unfold objective, jfun, wsse. rewrite sq_list by assumption. f_equal.
  apply sumn_ext. intros l Hl. fold (nrows m) in Hl. rewrite lin_list, weights_of_nth by assumption.
  f_equal. f_equal. f_equal.
  destruct Ht as [-> | ->]; cbn [targets_column]; unfold mget; cbn [mrows];
    rewrite (nth_map_lt (fun x => [x]) ys l 0 []) by lia; reflexivity.
Qed.
Lemma coeff_fn_ext s o s' o' : length s = d -> length s' = d -> (u = false -> o = 0) -> (u = false -> o' = 0) ->
  (forall j, (j < mcols (design u m))%nat -> coeff_fn u s o j = coeff_fn u s' o' j) -> s = s' /\ o = o'.
Proof.
  rewrite p_eq. unfold coeff_fn, coeff_list. intros Hs Hs' Ho Ho' E. destruct u.
  - assert (El : s ++ [o] = s' ++ [o']).
    { apply (nth_ext _ _ 0 0); rewrite !app_length, ?Hs, ?Hs'; [reflexivity|].
      intros j Hj. apply E. cbn in Hj. lia. }
    apply app_inj_tail in El. exact El.
  - split; [|rewrite Ho, Ho'; reflexivity].
    apply (nth_ext _ _ 0 0); rewrite ?Hs, ?Hs'; [reflexivity|]. exact E.
Qed.
(** every coefficient function is the function of a list and an offset *)
Definition slope_of (f : nat -> R) : list R := map f (seq 0 d).
Definition offset_of (f : nat -> R) : R := if u then f d else 0.
Lemma coeff_fn_of f j : (j < mcols (design u m))%nat -> coeff_fn u (slope_of f) (offset_of f) j = f j.
Proof.
  rewrite p_eq. unfold coeff_fn, coeff_list, slope_of, offset_of. intros Hj. destruct u.
  - destruct (Nat.eq_dec j d) as [->|].
    + rewrite app_nth2; rewrite map_length, seq_length; [|lia]. now rewrite Nat.sub_diag.
    + rewrite app_nth1 by (rewrite map_length, seq_length; lia). apply nth_map_seq. lia.
  - now apply nth_map_seq.
Qed.
Lemma offset_of_no f : u = false -> offset_of f = 0.
Proof. unfold offset_of. now intros ->. Qed.
Lemma slope_of_length f : length (slope_of f) = d.
Proof. unfold slope_of. now rewrite map_length, seq_length. Qed.

Hypothesis Hpos : (0 < nrows m)%nat.
Hypothesis Hlam : 0 <= lam.
Hypothesis Hwpos : forall l, (l < nrows m)%nat -> 0 <= weight_fn w l.

Lemma targets_facts t : targets_are t ys ->
  isize t = nrows m /\ nrows (targets_column t) = nrows m /\ mcols (targets_column t) = 1%nat.
Proof.
  intros [-> | ->]; unfold isize, targets_column, nrows in *; cbn [mrows mcols] in *; rewrite ?map_length;
    repeat split; lia.
Qed.

Lemma jfun_ext n p x wf y l f g : (forall j, (j < p)%nat -> f j = g j) ->
  jfun n p x wf y l f = jfun n p x wf y l g.
Proof.
  intros E. unfold jfun, lin. f_equal; [|f_equal].
  - apply sumn_ext. intros i Hi. f_equal. f_equal. f_equal. apply sumn_ext. intros j Hj. now rewrite E.
  - apply sumn_ext. intros j Hj. now rewrite E.
Qed.

Lemma fit_best t ps : targets_are t ys -> wls_train u lam w t m = Ok ps ->
  exists s o, best u d (mrows m) ys (weights_of w (nrows m)) lam s o /\ ps = fit_params u t (coeff_list u s o).
Proof.
  intros Ht E. destruct (targets_facts t Ht) as (T1 & T2 & T3).
  rewrite wls_train_eq in E by assumption.
  destruct (inv (normal_mat u lam w m)) as [i|] eqn:I; cbn [bind] in E; [|discriminate].
  assert (E' : ps = fit_params u t (map (coeff u w t m i) (seq 0 (mcols (design u m))))) by congruence. clear E. subst ps.
  set (f := coeff u w t m i). exists (slope_of f), (offset_of f). split.
  - split; [apply slope_of_length|]. split; [apply offset_of_no|]. intros s o Hs Ho.
    rewrite !(objective_jfun t) by (auto using slope_of_length, offset_of_no).
    rewrite (jfun_ext _ _ _ _ _ _ _ f (coeff_fn_of f)).
    split.
    + apply coeff_minimal; assumption.
    + intros Q. apply coeff_fn_ext; auto using slope_of_length, offset_of_no. intros j Hj.
      rewrite coeff_fn_of by assumption.
      apply (coeff_unique u lam w t m Hwpos Hlam i _ I); [|assumption]. rewrite Q. right. reflexivity.
  - f_equal. rewrite p_eq. unfold coeff_list, slope_of, offset_of, f. destruct u; [|reflexivity].
    rewrite seq_S, map_app. reflexivity.
Qed.

Lemma determined_kernel :
  (forall f, (forall l, (l < nrows m)%nat -> weight_fn w l * lin (mcols (design u m)) (mget (design u m)) f l = 0) ->
             forall j, (j < mcols (design u m))%nat -> f j = 0) <->
  determined u d (mrows m) (weights_of w (nrows m)).
Proof.
  split.
  - intros K s o Hs Ho Z. apply (coeff_fn_ext s o (repeat 0 d) 0); auto; [apply repeat_length|].
    intros j Hj. rewrite K; [| |assumption].
    + rewrite p_eq in Hj. unfold coeff_fn, coeff_list. destruct u; [|now rewrite nth_repeat].
      destruct (Nat.eq_dec j d) as [->|].
      * rewrite app_nth2; rewrite repeat_length; [|lia]. now rewrite Nat.sub_diag.
      * rewrite app_nth1 by (rewrite repeat_length; lia). now rewrite nth_repeat.
    + intros l Hl. rewrite lin_list by assumption. destruct (Rle_lt_or_eq_dec 0 (weight_fn w l) (Hwpos l Hl)) as [P|P].
      * rewrite Z; [ring|exact Hl|]. now rewrite <- weights_of_nth.
      * rewrite <- P. ring.
  - intros D f Z j Hj. rewrite <- (coeff_fn_of f j Hj).
    destruct (D (slope_of f) (offset_of f) (slope_of_length f) (offset_of_no f)) as [E1 E2].
    + intros l Hl P. fold (nrows m) in Hl. rewrite <- weights_of_nth in P by assumption.
      rewrite <- lin_list by auto using slope_of_length, offset_of_no. specialize (Z l Hl).
      apply Rmult_integral in Z. destruct Z as [Z|Z]; [lra|]. rewrite <- Z. unfold lin. apply sumn_ext.
      intros k Hk. now rewrite coeff_fn_of.
    + rewrite E1, E2. rewrite p_eq in Hj. unfold coeff_fn, coeff_list. destruct u; [|now rewrite nth_repeat].
      destruct (Nat.eq_dec j d) as [->|].
      * rewrite app_nth2; rewrite repeat_length; [|lia]. now rewrite Nat.sub_diag.
      * rewrite app_nth1 by (rewrite repeat_length; lia). now rewrite nth_repeat.
Qed.
Lemma fit_ok t : targets_are t ys ->
  (is_ok (wls_train u lam w t m) <-> 0 < lam \/ determined u d (mrows m) (weights_of w (nrows m))) /\
  (forall e, wls_train u lam w t m = Err e -> e = LinAlgError).
Proof.
  intros Ht. destruct (targets_facts t Ht) as (T1 & T2 & T3). rewrite wls_train_eq by assumption. split.
  - transitivity (exists i, inv (normal_mat u lam w m) = Ok i).
    { split; [intros [ps E]|intros [i E]; rewrite E; cbn; eexists; reflexivity].
      destruct (inv (normal_mat u lam w m)) as [i|]; [eauto|discriminate]. }
    rewrite (fit_succeeds u lam w t m Hwpos Hlam). split.
    + intros K. destruct (Rle_lt_or_eq_dec 0 lam Hlam) as [P|P]; [now left|right]. apply determined_kernel.
      intros f Z j Hj. apply (K f Z); [|assumption]. intros; rewrite <- P; ring.
    + intros [P|D] f Z1 Z2 j Hj.
      * specialize (Z2 j Hj). apply Rmult_integral in Z2. destruct Z2; [lra|assumption].
      * now apply (proj2 determined_kernel D f Z1).
  - intros e E. destruct (inv (normal_mat u lam w m)) as [i|e'] eqn:I; cbn [bind] in E; [discriminate|].
    pose proof (fit_fails u lam w t m e' I). congruence.
Qed.
End Lists.

(** noise-free data are recovered *)
Lemma best_exact u d xs ys ws s o s0 o0 :
  Forall (fun w => 0 <= w) ws -> length ws = length xs ->
  best u d xs ys ws 0 s o -> length s0 = d -> (u = false -> o0 = 0) ->
  (forall i, (i < length xs)%nat -> nth i ys 0 = affine s0 o0 (nth i xs [])) -> s = s0 /\ o = o0.
Proof.
  intros Hws Lws (Hs & Ho & B) Hs0 Ho0 E. destruct (B s0 o0 Hs0 Ho0) as [B1 B2].
  assert (Z : objective xs ys ws 0 s0 o0 = 0).
  { unfold objective, wsse. rewrite sumn_zero; [ring|]. intros i Hi. rewrite E by assumption. ring. }
  assert (P : 0 <= objective xs ys ws 0 s o).
  { unfold objective, wsse. rewrite Rmult_0_l, Rplus_0_r. apply sumn_nonneg. intros i Hi.
    apply Rmult_le_pos; [|apply pow2_ge_0]. rewrite Forall_forall in Hws. apply Hws. apply nth_In. lia. }
  destruct B2 as [<- <-]; [lra|]. split; reflexivity.
Qed.

(** ** predictions *)
Lemma wls_predict_fit u t ys s o d q : t = In1 ys -> length s = d -> (u = false -> o = 0) -> mcols q = d ->
  wls_predict (fit_params u t (coeff_list u s o)) q = Ok (In1 (map (affine s o) (mrows q))).
Proof.
  intros -> Hs Ho Hq. unfold fit_params, coeff_list, wls_predict, param_arr. destruct u; cbn.
  - rewrite removelast_last, last_last. rewrite Hs, Hq, Nat.eqb_refl. reflexivity.
  - rewrite Hs, Hq, Nat.eqb_refl. rewrite Ho by reflexivity. reflexivity.
Qed.
(** targets of shape (n, 1) *)
Lemma wls_predict_column u t ys s o d q : t = In2 (Mat 1 (map (fun y => [y]) ys)) ->
  length s = d -> mcols q = d -> d <> 1%nat ->
  wls_predict (fit_params u t (coeff_list u s o)) q = Err ValueError.
Proof.
  intros -> Hs Hq Hd. unfold fit_params, coeff_list, wls_predict, param_arr. destruct u; cbn.
  - rewrite removelast_last, last_last. rewrite Hq. destruct (Nat.eqb_spec d 1); [lia|reflexivity].
  - rewrite Hq. destruct (Nat.eqb_spec d 1); [lia|reflexivity].
Qed.
