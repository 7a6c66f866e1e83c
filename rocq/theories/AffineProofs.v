(** Proofs: what is learned is linear in the targets. *)
From Coq Require Import String.
From Verif Require Import Base BaseLemmas ParamModel FaModel FaSpec FaProofs FaProofs2 FaProofs3 FaProofs7 FaProofs8 FaProofs10 AffineSpec.
Open Scope list_scope.
Open Scope R_scope.

(** ** combinations *)
Section Comb.
Variables (n : nat) (a : nat -> R).
Notation comb F := (sumn n (fun j => a j * F j)).
Lemma comb_scal c F : comb (fun j => c * F j) = c * comb F.
Proof. rewrite <- sumn_scal. apply sumn_ext. intros; ring. Qed.
Lemma comb_sum p F : comb (fun j => sumn p (F j)) = sumn p (fun k => comb (fun j => F j k)).
Proof.
  rewrite (sumn_ext n _ (fun j => sumn p (fun k => a j * F j k))) by (intros; now rewrite sumn_scal). apply sumn_swap.
Qed.
Lemma comb_plus F H : comb (fun j => F j + H j) = comb F + comb H.
Proof. rewrite <- sumn_plus. apply sumn_ext. intros; ring. Qed.
Lemma comb_ext F H : (forall j, (j < n)%nat -> F j = H j) -> comb F = comb H.
Proof. intros E. apply sumn_ext. intros j Hj. now rewrite E. Qed.

(** coefficients *)
Lemma coeff_comb u w m Y ys i k : combination n a Y ys -> length ys = nrows m ->
  coeff u w (In1 ys) m i k = comb (fun j => coeff u w (In1 (Y j)) m i k).
Proof.
  intros [L C] Ln. unfold coeff. rewrite comb_sum. apply sumn_ext. intros q Hq. rewrite comb_scal. f_equal.
  unfold rhs. rewrite comb_sum. apply sumn_ext. intros l Hl. rewrite comb_scal. f_equal.
  assert (G : forall v, length v = length ys -> mget (targets_column (In1 v)) l 0 = nth l v 0).
  { intros v Lv. unfold mget. cbn [targets_column mrows]. rewrite (nth_map_lt (fun x => [x]) v l 0 []) by lia. reflexivity. }
  rewrite G by reflexivity. rewrite C by lia. apply comb_ext. intros j Hj. now rewrite G by now apply L.
Qed.
Lemma dot_comb d x v V : length x = d -> length v = d -> (forall j, (j < n)%nat -> length (V j) = d) ->
  (forall k, (k < d)%nat -> nth k v 0 = comb (fun j => nth k (V j) 0)) -> dot x v = comb (fun j => dot x (V j)).
Proof.
  intros Lx Lv LV H. rewrite (dot_sumn d) by assumption.
  rewrite (comb_ext _ (fun j => sumn d (fun k => nth k x 0 * nth k (V j) 0))) by (intros j Hj; now rewrite (dot_sumn d) by auto).
  rewrite comb_sum. apply sumn_ext. intros k Hk. rewrite comb_scal. now rewrite H.
Qed.
Lemma map_combination {A} (X : list A) f F : (forall x, In x X -> f x = comb (fun j => F j x)) -> combination n a (fun j => map (F j) X) (map f X).
Proof.
  intros H. split; [intros; now rewrite !map_length|]. rewrite map_length. intros k Hk. destruct X as [|x0 X]; [cbn in Hk; lia|].
  rewrite (nth_map_lt f _ k x0 0) by assumption. rewrite H by now apply nth_In. apply comb_ext. intros j Hj.
  now rewrite (nth_map_lt (F j) _ k x0 0).
Qed.
End Comb.

(** ** weighted least squares *)
Lemma map_seq_last (f : nat -> R) d : map f (seq 0 (S d)) = map f (seq 0 d) ++ [f d].
Proof. now rewrite seq_S, map_app. Qed.
Section Wls.
Variables (u : bool) (lam : R) (w : option (list R)) (m : mat) (d : nat).
Hypothesis Hwf : mat_wf m.
Hypothesis Hd : mcols m = d.
Hypothesis Hpos : (0 < nrows m)%nat.
Hypothesis Hw : weights_fit w (nrows m).
Notation slope i ys := (map (coeff u w (In1 ys) m i) (seq 0 d)).
Notation offset i ys := (if u then coeff u w (In1 ys) m i d else 0).
Lemma wls_closed ys : length ys = nrows m ->
  wls_train u lam w (In1 ys) m = let* i := inv (normal_mat u lam w m) in Ok (fit_params u (In1 ys) (coeff_list u (slope i ys) (offset i ys))).
Proof.
  intros L. destruct (targets_facts m d Hd ys L Hpos (In1 ys) (or_introl eq_refl)) as (T1 & T2 & T3).
  rewrite wls_train_eq by assumption. destruct (inv _) as [i|]; [|reflexivity]. cbn [bind]. f_equal. f_equal.
  rewrite (p_eq u m d Hd). unfold coeff_list. destruct u; [apply map_seq_last|reflexivity].
Qed.
Lemma affine_comb n a Y ys i x : combination n a Y ys -> length ys = nrows m -> length x = d ->
  affine (slope i ys) (offset i ys) x = sumn n (fun j => a j * affine (slope i (Y j)) (offset i (Y j)) x).
Proof.
  intros C L Lx. unfold affine. rewrite comb_plus. f_equal.
  - apply (dot_comb n a d); [assumption|now rewrite map_length, seq_length|intros; now rewrite map_length, seq_length|].
    intros k Hk. rewrite nth_map_seq by assumption. rewrite (coeff_comb n a u w m Y) by assumption. apply comb_ext. intros j Hj. now rewrite nth_map_seq.
  - destruct u; [now apply coeff_comb|]. symmetry. apply sumn_zero. intros; ring.
Qed.
Lemma wls_linear n a Y ys P ps X : combination n a Y ys -> length ys = nrows m -> mat_wf X -> mcols X = d ->
  (forall j, (j < n)%nat -> wls_train u lam w (In1 (Y j)) m = Ok (P j)) -> wls_train u lam w (In1 ys) m = Ok ps ->
  exists V vs, (forall j, (j < n)%nat -> wls_predict (P j) X = Ok (In1 (V j))) /\ wls_predict ps X = Ok (In1 vs) /\ combination n a V vs.
Proof.
  intros C L WX DX EP E. pose proof C as [LY _]. rewrite wls_closed in E by assumption.
  destruct (inv (normal_mat u lam w m)) as [i|] eqn:Ei; cbn [bind] in E; [|discriminate].
  exists (fun j => map (affine (slope i (Y j)) (offset i (Y j))) (mrows X)), (map (affine (slope i ys) (offset i ys)) (mrows X)).
  assert (Pr : forall v, wls_predict (fit_params u (In1 v) (coeff_list u (slope i v) (offset i v))) X = Ok (In1 (map (affine (slope i v) (offset i v)) (mrows X)))).
  { intros v. apply (wls_predict_fit u (In1 v) v _ _ d); [reflexivity|now rewrite map_length, seq_length|now intros ->|assumption]. }
  split; [|split].
  - intros j Hj. specialize (EP j Hj). rewrite wls_closed in EP by (rewrite LY by assumption; assumption). rewrite Ei in EP. cbn [bind] in EP.
    apply (f_equal (fun r => match r with Ok q => q | Err _ => P j end)) in EP. cbv beta iota in EP. rewrite <- EP. apply Pr.
  - apply (f_equal (fun r => match r with Ok q => q | Err _ => ps end)) in E. cbv beta iota in E. rewrite <- E. apply Pr.
  - apply map_combination. intros x Hx. apply affine_comb; try assumption. unfold mat_wf in WX. rewrite Forall_forall in WX. rewrite <- DX. now apply WX.
Qed.
Lemma wls_same v v' ps : length v = nrows m -> length v' = nrows m -> wls_train u lam w (In1 v) m = Ok ps -> exists ps', wls_train u lam w (In1 v') m = Ok ps'.
Proof. intros L L'. rewrite !wls_closed by assumption. destruct (inv _); cbn [bind]; [|discriminate]. eauto. Qed.
End Wls.

(** ** RBFN *)
Lemma one_column n (l : list R) : length l = n -> (0 < n)%nat -> reshape n l = Ok (Mat 1 (map (fun x => [x]) l)).
Proof.
  intros <- H. unfold reshape. destruct (length l) as [|k] eqn:E; [lia|]. rewrite <- E, Nat.mod_same, Nat.div_same by lia.
  cbn [Nat.eqb]. f_equal. f_equal. clear. induction l; cbn; [reflexivity|]. now rewrite IHl.
Qed.
Lemma column_data (l : list R) : mat_arr (Mat 1 (map (fun x => [x]) l)) = Arr [length l; 1%nat] l.
Proof.
  unfold mat_arr, nrows. cbn [mrows mcols]. rewrite map_length. f_equal. induction l; cbn; [reflexivity|]. now rewrite IHl.
Qed.
Section Grid.
Variables (d : nat) (xs : list (list R)) (ns : list nat) (h lam : R).
Hypothesis HS : samples d xs.
Hypothesis HD : (0 < d)%nat.
Hypothesis HP : per_dim d ns.
Hypothesis HSp : spread d xs ns.
Hypothesis Hh : 0 < h < 1.
Notation bf C W := (basis d xs ns h C W).

Lemma rbfn_closed C W ys : bf C W -> length ys = length xs ->
  rbfn_train exp ns h lam (In1 ys) (Mat d xs) =
  let* i := inv (normal_mat false lam None (act_mat xs C W)) in
  Ok (rbfn_ps d C W (map (coeff false None (In1 ys) (act_mat xs C W) i) (seq 0 (length C)))).
Proof.
  intros B L. rewrite (rbfn_train_eq d xs ns h lam ys (In1 ys) HS HD HSp L C W B).
  pose proof (act_mat_nrows xs C W) as N. assert (XP : (0 < length xs)%nat) by (destruct HS as [NE _]; destruct xs; [contradiction|cbn; lia]).
  rewrite (wls_closed false lam None (act_mat xs C W) (length C)); [|exact (act_mat_wf d xs ns h C W B)|reflexivity|now rewrite N|exact I|now rewrite N].
  destruct (inv _) as [i|]; [|reflexivity]. cbn [bind fit_params coeff_list param_arr lookup String.eqb Ascii.eqb Bool.eqb].
  unfold param_arr. cbn [lookup String.eqb Ascii.eqb Bool.eqb bind beta_arr adata vec_arr].
  set (l := map _ _). assert (Ll : length l = length C) by (unfold l; now rewrite map_length, seq_length).
  rewrite one_column by (try exact Ll; exact (bs_pos _ _ _ _ _ _ B)). cbn [bind]. rewrite column_data, Ll. reflexivity.
Qed.
Lemma rbfn_linear n a Y ys P ps X : combination n a Y ys -> length ys = length xs -> Forall (fun r => length r = d) X ->
  (forall j, (j < n)%nat -> rbfn_train exp ns h lam (In1 (Y j)) (Mat d xs) = Ok (P j)) -> rbfn_train exp ns h lam (In1 ys) (Mat d xs) = Ok ps ->
  exists V vs, (forall j, (j < n)%nat -> rbfn_predict exp (P j) (Mat d X) = Ok (V j)) /\ rbfn_predict exp ps (Mat d X) = Ok vs /\ combination n a V vs.
Proof.
  intros Cb L WX EP E. pose proof Cb as [LY _]. destruct (basis_exists d xs ns h HS HD HP HSp Hh) as (C & W & B).
  rewrite (rbfn_closed C W) in E by assumption. destruct (inv _) as [i|] eqn:Ei; cbn [bind] in E; [|discriminate].
  set (wt := fun v => map (coeff false None (In1 v) (act_mat xs C W) i) (seq 0 (length C))) in *.
  assert (Lw : forall v, length (wt v) = length C) by (intros; unfold wt; now rewrite map_length, seq_length).
  exists (fun j => map (rbf_sum C W (wt (Y j))) X), (map (rbf_sum C W (wt ys)) X). split; [|split].
  - intros j Hj. specialize (EP j Hj). rewrite (rbfn_closed C W) in EP by (trivial; rewrite LY by assumption; assumption). rewrite Ei in EP. cbn [bind] in EP.
    apply (f_equal (fun r => match r with Ok q => q | Err _ => P j end)) in EP. cbv beta iota in EP. rewrite <- EP.
    apply (rbfn_predict_ok d xs ns h C W); trivial; apply Lw.
  - apply (f_equal (fun r => match r with Ok q => q | Err _ => ps end)) in E. cbv beta iota in E. rewrite <- E.
    apply (rbfn_predict_ok d xs ns h C W); trivial; apply Lw.
  - apply map_combination. intros x Hx. unfold rbf_sum.
    assert (Lg : length (gaussians C W x) = length C) by (unfold gaussians; rewrite map2_length, (bs_nW _ _ _ _ _ _ B); apply Nat.min_id).
    apply (dot_comb n a (length C)); [assumption|apply Lw|intros; apply Lw|].
    intros k Hk. unfold wt. rewrite nth_map_seq by assumption. rewrite (coeff_comb n a false None _ Y) by (trivial; now rewrite act_mat_nrows).
    apply comb_ext. intros j Hj. now rewrite nth_map_seq.
Qed.

(** ** LWR *)
Definition the_line C W (v : list R) (i : mat) (k : nat) : list R * R :=
  (map (coeff true (Some (share_weights xs C W k)) (In1 v) (Mat d xs) i) (seq 0 d), coeff true (Some (share_weights xs C W k)) (In1 v) (Mat d xs) i d).
Lemma lwr_closed C W ys : bf C W -> length ys = length xs ->
  lwr_train exp ns h lam (In1 ys) (Mat d xs) =
  let* inverses := mapM (fun k => inv (normal_mat true 0 (Some (share_weights xs C W k)) (Mat d xs))) (seq 0 (length C)) in
  Ok (lwr_ps d C W (map (fun k => the_line C W ys (nth k inverses (Mat 0 [])) k) (seq 0 (length C)))).
Proof.
  intros B L. rewrite (lwr_train_eq d xs ns h lam ys (In1 ys) HS HD L (or_introl eq_refl) C W B).
  assert (XP : (0 < length xs)%nat) by (destruct HS as [NE _]; destruct xs; [contradiction|cbn; lia]).
  set (f := fun k : nat => _). set (g := fun k : nat => inv _).
  assert (Ef : forall k, f k = let* i := g k in Ok (the_line C W ys i k)).
  { intros k. unfold f, g.
    rewrite (wls_closed true 0 (Some (share_weights xs C W k)) (Mat d xs) d); [|apply HS|reflexivity|exact XP|cbn; apply map_length|exact L].
    destruct (inv _) as [i|]; [|reflexivity]. cbn [bind].
    apply (fit_slope d xs ns h ys (In1 ys) HS HD HP HSp (or_introl eq_refl) (or_introl eq_refl) C W B). now rewrite map_length, seq_length. }
  assert (Em : forall l, mapM f l = let* is := mapM g l in Ok (map (fun p => the_line C W ys (snd p) (fst p)) (combine l is))).
  { induction l as [|k l IH]; [reflexivity|]. cbn [mapM]. rewrite Ef. destruct (g k) as [i|]; [|reflexivity]. cbn [bind]. rewrite IH.
    destruct (mapM g l) as [is|]; [|reflexivity]. reflexivity. }
  rewrite Em. destruct (mapM g (seq 0 (length C))) as [is|] eqn:Eg; [|reflexivity]. cbn [bind]. f_equal. f_equal.
  apply mapM_ok_length in Eg. rewrite seq_length in Eg.
  apply (nth_ext _ _ ([], 0) ([], 0)); [rewrite !map_length, combine_length, seq_length; lia|].
  rewrite map_length, combine_length, seq_length, Eg, Nat.min_id. intros k Hk.
  rewrite (nth_map_lt _ _ k (0%nat, Mat 0 [])) by (rewrite combine_length, seq_length; lia).
  rewrite combine_nth by (rewrite seq_length; lia). rewrite seq_nth by lia. cbn [fst snd Nat.add].
  rewrite (nth_map_lt _ _ k 0%nat) by (rewrite seq_length; lia). now rewrite seq_nth by lia.
Qed.
Lemma lwr_linear n a Y ys P ps X : combination n a Y ys -> length ys = length xs -> Forall (fun r => length r = d) X ->
  (forall j, (j < n)%nat -> lwr_train exp ns h lam (In1 (Y j)) (Mat d xs) = Ok (P j)) -> lwr_train exp ns h lam (In1 ys) (Mat d xs) = Ok ps ->
  exists V vs, (forall j, (j < n)%nat -> lwr_predict exp (P j) (Mat d X) = Ok (V j)) /\ lwr_predict exp ps (Mat d X) = Ok vs /\ combination n a V vs.
Proof.
  intros Cb L WX EP E. pose proof Cb as [LY _]. destruct (basis_exists d xs ns h HS HD HP HSp Hh) as (C & W & B).
  rewrite (lwr_closed C W) in E by assumption. destruct (mapM _ _) as [is|] eqn:Ei in E; cbn [bind] in E; [|discriminate].
  set (ln := fun v => map (fun k => the_line C W v (nth k is (Mat 0 [])) k) (seq 0 (length C))) in *.
  assert (Ll : forall v, length (ln v) = length C) by (intros; unfold ln; now rewrite map_length, seq_length).
  assert (Pr : forall v, lwr_predict exp (lwr_ps d C W (ln v)) (Mat d X) = Ok (map (lwr_sum C W (ln v)) X)).
  { intros v. apply (lwr_predict_ok d C W (basis_kset _ _ _ _ _ _ B)); trivial.
    unfold ln. apply Forall_map, Forall_forall. intros k _. unfold the_line. cbn [fst]. now rewrite map_length, seq_length. }
  exists (fun j => map (lwr_sum C W (ln (Y j))) X), (map (lwr_sum C W (ln ys)) X). split; [|split].
  - intros j Hj. specialize (EP j Hj). rewrite (lwr_closed C W) in EP by (trivial; rewrite LY by assumption; assumption). rewrite Ei in EP. cbn [bind] in EP.
    apply (f_equal (fun r => match r with Ok q => q | Err _ => P j end)) in EP. cbv beta iota in EP. rewrite <- EP. apply Pr.
  - apply (f_equal (fun r => match r with Ok q => q | Err _ => ps end)) in E. cbv beta iota in E. rewrite <- E. apply Pr.
  - apply map_combination. intros x Hx. assert (Lx : length x = d) by (rewrite Forall_forall in WX; now apply WX).
    assert (Lv : forall v, length (line_values (ln v) x) = length C) by (intros; unfold line_values; now rewrite map_length).
    assert (Lsh : length (shares C W x) = length C) by (apply shares_length; apply B).
    assert (Sw : forall v, lwr_sum C W (ln v) x = dot (shares C W x) (line_values (ln v) x)).
    { intros v. unfold lwr_sum. rewrite !(dot_sumn (length C)) by auto. apply sumn_ext. intros; ring. }
    rewrite Sw. rewrite (comb_ext n a _ (fun j => dot (shares C W x) (line_values (ln (Y j)) x))) by (intros; apply Sw).
    apply (dot_comb n a (length C)); auto. intros k Hk.
    assert (Nv : forall v, nth k (line_values (ln v) x) 0 = affine (fst (the_line C W v (nth k is (Mat 0 [])) k)) (snd (the_line C W v (nth k is (Mat 0 [])) k)) x).
    { intros v. unfold line_values. rewrite (nth_map_lt _ _ k ([], 0)) by now rewrite Ll. unfold ln. now rewrite nth_map_seq. }
    rewrite Nv. rewrite (comb_ext n a _ (fun j => affine (fst (the_line C W (Y j) (nth k is (Mat 0 [])) k)) (snd (the_line C W (Y j) (nth k is (Mat 0 [])) k)) x)) by (intros; apply Nv).
    unfold the_line. cbn [fst snd].
    exact (affine_comb true (Some (share_weights xs C W k)) (Mat d xs) d n a Y ys _ x Cb L Lx).
Qed.

(** ** success does not depend on the targets *)
Lemma rbfn_same v v' ps : length v = length xs -> length v' = length xs ->
  rbfn_train exp ns h lam (In1 v) (Mat d xs) = Ok ps -> exists ps', rbfn_train exp ns h lam (In1 v') (Mat d xs) = Ok ps'.
Proof.
  intros L L'. destruct (basis_exists d xs ns h HS HD HP HSp Hh) as (C & W & B). rewrite !(rbfn_closed C W) by assumption.
  destruct (inv _); cbn [bind]; [|discriminate]. eauto.
Qed.
Lemma lwr_same v v' ps : length v = length xs -> length v' = length xs ->
  lwr_train exp ns h lam (In1 v) (Mat d xs) = Ok ps -> exists ps', lwr_train exp ns h lam (In1 v') (Mat d xs) = Ok ps'.
Proof.
  intros L L'. destruct (basis_exists d xs ns h HS HD HP HSp Hh) as (C & W & B). rewrite !(lwr_closed C W) by assumption.
  destruct (mapM _ _); cbn [bind]; [|discriminate]. eauto.
Qed.
End Grid.
