(** Proofs: Gaussian process regression is linear in the targets; training through the API. *)
From Coq Require Import String.
From Verif Require Import Base BaseLemmas ParamModel FaModel FaSpec FaProofs FaProofs2 FaProofs3 FaProofs7 FaProofs8 FaProofs10 FaProofs12 AffineSpec AffineProofs.
Open Scope list_scope.
Open Scope R_scope.

Section Gpr.
Variables (d : nat) (xs : list (list R)) (mx : R) (ls : list R).
Hypothesis HS : samples d xs.
Hypothesis Hmx : mx <> 0.
Hypothesis Hls : length ls = d.
Hypothesis Hnz : Forall (fun l => l <> 0) ls.
Notation N := (length xs).
Notation gw b ys := (map (fun i => sumn N (fun k => mget b i k * nth k ys 0)) (seq 0 N)).
Notation gps b ys := (gpr_ps d xs mx ls ++ [("gram_inv_targets"%string, PArr (weights_arr (In1 ys) (gw b ys)))])%list.
Lemma gpr_closed ys : length ys = N -> gpr_train exp mx ls (In1 ys) (Mat d xs) = let* b := inv (gacts xs mx ls xs) in Ok (gps b ys).
Proof. intros L. exact (gpr_train_eq d xs mx ls ys (In1 ys) HS Hls Hnz L (or_introl eq_refl)). Qed.
Lemma gpr_values ys b X : Forall (fun r => length r = d) X ->
  gpr_predict exp (gps b ys) (Mat d X) = Ok (map (fun i => sumn N (fun j => mget (gacts xs mx ls X) i j * nth j (gw b ys) 0)) (seq 0 (length X))).
Proof.
  intros HX. unfold gpr_predict, param_arr. cbn [lookup gpr_ps app String.eqb Ascii.eqb Bool.eqb bind].
  rewrite (gpr_activations_ok d xs mx ls HS Hls Hnz) by (try reflexivity; assumption). cbn [bind].
  unfold weighted_sum. rewrite gacts_nrows. change (mcols (gacts xs mx ls X)) with N.
  set (ws := gw b ys). assert (Lw : length ws = N) by (unfold ws; now rewrite map_length, seq_length).
  rewrite (mapM_pure _ (fun ii => map (fun _ => nth ii ws 0) (seq 0 (length X)))).
  - cbn [bind]. f_equal. apply map_ext_in. intros i Hi. apply in_seq in Hi. apply sumn_ext. intros j Hj. f_equal.
    rewrite nth_map_seq by assumption. now rewrite nth_map_seq by lia.
  - intros j Hj. apply in_seq in Hj. apply mapM_pure. intros i Hi. unfold weight_at, weights_arr, beta_arr. cbn [ashape adata vec_arr].
    apply nth_res_ok. rewrite Lw. lia.
Qed.
Lemma gpr_linear n a Y ys P ps X : combination n a Y ys -> length ys = N -> Forall (fun r => length r = d) X ->
  (forall j, (j < n)%nat -> gpr_train exp mx ls (In1 (Y j)) (Mat d xs) = Ok (P j)) -> gpr_train exp mx ls (In1 ys) (Mat d xs) = Ok ps ->
  exists V vs, (forall j, (j < n)%nat -> gpr_predict exp (P j) (Mat d X) = Ok (V j)) /\ gpr_predict exp ps (Mat d X) = Ok vs /\ combination n a V vs.
Proof.
  intros Cb L HX EP E. pose proof Cb as [LY CY]. rewrite gpr_closed in E by assumption.
  destruct (inv _) as [b|] eqn:Ei; cbn [bind] in E; [|discriminate].
  set (val := fun v i => sumn N (fun j => mget (gacts xs mx ls X) i j * nth j (gw b v) 0)).
  exists (fun j => map (val (Y j)) (seq 0 (length X))), (map (val ys) (seq 0 (length X))). split; [|split].
  - intros j Hj. specialize (EP j Hj). rewrite gpr_closed in EP by (rewrite LY by assumption; assumption). rewrite Ei in EP. cbn [bind] in EP.
    apply (f_equal (fun r => match r with Ok q => q | Err _ => P j end)) in EP. cbv beta iota in EP. rewrite <- EP. now apply gpr_values.
  - apply (f_equal (fun r => match r with Ok q => q | Err _ => ps end)) in E. cbv beta iota in E. rewrite <- E. now apply gpr_values.
  - apply map_combination. intros i Hi. unfold val. rewrite comb_sum. apply sumn_ext. intros q Hq. rewrite comb_scal. f_equal.
    rewrite nth_map_seq by assumption.
    rewrite (comb_ext n a _ (fun j => sumn N (fun k => mget b q k * nth k (Y j) 0))) by (intros; now rewrite nth_map_seq).
    rewrite comb_sum. apply sumn_ext. intros k Hk. rewrite comb_scal. f_equal. apply CY. lia.
Qed.
Lemma gpr_same v v' ps : length v = N -> length v' = N -> gpr_train exp mx ls (In1 v) (Mat d xs) = Ok ps -> exists ps', gpr_train exp mx ls (In1 v') (Mat d xs) = Ok ps'.
Proof. intros L L'. rewrite !gpr_closed by assumption. destruct (inv _); cbn [bind]; [|discriminate]. eauto. Qed.
End Gpr.

(** ** training and prediction *)
Section Api.
Variables (B : Type) (d : nat) (xs : list (list R)) (trn : input -> mat -> res (list (string * pval))) (prd : list (string * pval) -> mat -> res B)
  (out : list R -> B).
Hypothesis NE : xs <> [].
Hypothesis Same : forall v v' ps, length v = length xs -> length v' = length xs -> trn (In1 v) (Mat d xs) = Ok ps -> exists ps', trn (In1 v') (Mat d xs) = Ok ps'.
Hypothesis Lin : forall n a Y ys P ps X, combination n a Y ys -> length ys = length xs -> Forall (fun r => length r = d) X ->
  (forall j, (j < n)%nat -> trn (In1 (Y j)) (Mat d xs) = Ok (P j)) -> trn (In1 ys) (Mat d xs) = Ok ps ->
  exists V vs, (forall j, (j < n)%nat -> prd (P j) (Mat d X) = Ok (out (V j))) /\ prd ps (Mat d X) = Ok (out vs) /\ combination n a V vs.
Lemma api_linear n a Y ys F f' F' : (0 < n)%nat -> combination n a Y ys -> length ys = length xs ->
  (forall j, (j < n)%nat -> train (F j) (trn (In1 (Y j))) (In2 (Mat d xs)) = (F' j, Ok tt)) ->
  exists f'', train f' (trn (In1 ys)) (In2 (Mat d xs)) = (f'', Ok tt) /\
    forall X, X <> [] -> Forall (fun r => length r = d) X ->
      exists V vs, (forall j, (j < n)%nat -> predict (F' j) prd (In2 (Mat d X)) = Ok (out (V j))) /\ predict f'' prd (In2 (Mat d X)) = Ok (out vs) /\
        combination n a V vs.
Proof.
  intros Hn Cb L ET. pose proof Cb as [LY _].
  assert (EP : exists P, forall j, (j < n)%nat -> trn (In1 (Y j)) (Mat d xs) = Ok (P j) /\ F' j = Fa (P j) (Some d) (f_sel (F j))).
  { exists (fun j => match trn (In1 (Y j)) (Mat d xs) with Ok p => p | Err _ => [] end). intros j Hj. specialize (ET j Hj). apply train_ok in ET; [|exact NE].
    destruct ET as (p & Ep & Ef). rewrite Ep. auto. }
  destruct EP as [P EP].
  destruct (Same (Y 0%nat) ys (P 0%nat)) as [ps Eps]; [now rewrite LY|assumption|now apply EP|].
  exists (Fa ps (Some d) (f_sel f')). split; [apply train_ok; [exact NE|]; eauto|]. intros X NX HX.
  destruct (Lin n a Y ys P ps X Cb L HX (fun j Hj => proj1 (EP j Hj)) Eps) as (V & vs & EV & Ev & Cv). exists V, vs. split; [|split; [|exact Cv]].
  - intros j Hj. rewrite (proj2 (EP j Hj)). rewrite predict_ok by assumption. now apply EV.
  - now rewrite predict_ok by assumption.
Qed.
End Api.
