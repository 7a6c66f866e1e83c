(** The properties of LWR, RBFN and GPR, in terms of the specification. *)
From Coq Require Import String.
From Verif Require Import Base BaseLemmas ParamModel FaModel FaSpec FaProofs FaProofs2 FaProofs3 FaProofs4 FaProofs5 FaProofs6 FaProofs7 FaProofs8 FaProofs9 FaProofs10 FaProofs11 FaProofs12.
Open Scope list_scope.
Open Scope R_scope.



Lemma repeat_nth (l : list R) c n : length l = n -> (forall i, (i < n)%nat -> nth i l 0 = c) -> l = repeat c n.
Proof.
  intros <- H. apply (nth_ext _ _ 0 0); [now rewrite repeat_length|]. intros i Hi. rewrite nth_rep by assumption. now apply H.
Qed.

Section Data.
Variables (d : nat) (xs : list (list R)) (ys : list R) (ns : list nat) (h lam : R) (t : input).
Hypothesis G : grid_data d xs ys ns h.
Hypothesis Ht : targets_are t ys.
Let NE : xs <> []. Proof. apply G. Qed.

(** ** C68 *)
Section Lwr.
Hypothesis Ht1 : t = In1 ys \/ d = 1%nat.
Lemma lwr_model f f' : train f (lwr_train exp ns h lam t) (In2 (Mat d xs)) = (f', Ok tt) ->
  exists C W lines, get_centers_and_widths (In2 (Mat d xs)) ns h = Ok (Mat d C, Mat d W) /\
    length lines = prod ns /\ length C = prod ns /\ length W = prod ns /\
    (forall k, (k < prod ns)%nat ->
       best true d xs ys (map (fun x => nth k (shares C W x) 0) xs) 0 (fst (nth k lines ([], 0))) (snd (nth k lines ([], 0)))) /\
    forall X, X <> [] -> Forall (fun r => length r = d) X ->
      predict f' (lwr_predict exp) (In2 (Mat d X)) = Ok (map (lwr_sum C W lines) X).
Proof.
  intros E. apply train_ok in E; [|exact NE]. destruct E as (ps & E & ->). destruct G as [Gd Gx Gy Gn Gs Gh].
  destruct (basis_exists d xs ns h Gx Gd Gn Gs Gh) as (C & W & B).
  destruct (lwr_fit d xs ns h lam ys t Gx Gd Gn Gs Gy Ht Ht1 C W B ps E) as (lines & Ll & -> & Best).
  exists C, W, lines. rewrite <- (bs_n _ _ _ _ _ _ B). split; [apply B|]. split; [assumption|]. split; [reflexivity|]. split; [apply B|].
  split; [exact Best|]. intros X N HX. rewrite predict_ok by assumption. apply (lwr_predict_ok d C W (basis_kset _ _ _ _ _ _ B)); try assumption.
  apply Forall_forall. intros l Hl. apply (In_nth_lt lines l ([], 0)) in Hl. destruct Hl as (k & Hk & <-). rewrite Ll in Hk.
  apply (Best k Hk).
Qed.
Lemma lwr_one f f' : prod ns = 1%nat -> train f (lwr_train exp ns h lam t) (In2 (Mat d xs)) = (f', Ok tt) ->
  exists s o, best true d xs ys (ones (length xs)) 0 s o /\
    forall X, X <> [] -> Forall (fun r => length r = d) X ->
      predict f' (lwr_predict exp) (In2 (Mat d X)) = Ok (map (affine s o) X).
Proof.
  intros P1 E. destruct (lwr_model f f' E) as (C & W & lines & _ & Ll & LC & LW & Best & Pr). rewrite P1 in *.
  destruct C as [|c [|? ?]]; try discriminate. destruct W as [|w [|? ?]]; try discriminate.
  destruct lines as [|[s o] [|? ?]]; try discriminate.
  assert (Sh : forall x, shares [c] [w] x = [1]).
  { intros x. unfold shares, gaussians. cbn. f_equal. pose proof (gaussian_pos c w x). field. lra. }
  exists s, o. split.
  - specialize (Best 0%nat ltac:(lia)). cbn [nth fst snd] in Best.
    rewrite (map_ext _ (fun _ => 1)) in Best by (intros; now rewrite Sh).
    replace (map (fun _ => 1) xs) with (ones (length xs)) in Best; [exact Best|].
    clear. unfold ones. induction xs; cbn; [reflexivity|]. now rewrite IHl.
  - intros X N HX. rewrite Pr by assumption. f_equal. apply map_ext. intros x. unfold lwr_sum, line_values. rewrite Sh. unfold dot. cbn. ring.
Qed.
Lemma lwr_succeeds f :
  (is_ok (snd (train f (lwr_train exp ns h lam t) (In2 (Mat d xs)))) <-> determined true d xs (ones (length xs))) /\
  (forall f' e, train f (lwr_train exp ns h lam t) (In2 (Mat d xs)) = (f', Err e) -> e = LinAlgError).
Proof.
  destruct G as [Gd Gx Gy Gn Gs Gh]. destruct (basis_exists d xs ns h Gx Gd Gn Gs Gh) as (C & W & B).
  destruct (lwr_train_ok d xs ns h lam ys t Gx Gd Gn Gs Gy Ht Ht1 C W B) as [F1 F2]. split.
  - rewrite train_is_ok by exact NE. exact F1.
  - intros f' e E. apply train_fails in E; [|exact NE]. apply F2, E.
Qed.
End Lwr.

(** ** C70 *)
Lemma rbfn_model f f' : 0 <= lam -> train f (rbfn_train exp ns h lam t) (In2 (Mat d xs)) = (f', Ok tt) ->
  exists C W ws, get_centers_and_widths (In2 (Mat d xs)) ns h = Ok (Mat d C, Mat d W) /\
    length ws = prod ns /\ length C = prod ns /\ length W = prod ns /\
    (forall v, length v = prod ns -> rbf_error C W xs ys lam ws <= rbf_error C W xs ys lam v /\
       (rbf_error C W xs ys lam v = rbf_error C W xs ys lam ws -> v = ws)) /\
    (forall X, X <> [] -> Forall (fun r => length r = d) X ->
      predict f' (rbfn_predict exp) (In2 (Mat d X)) = Ok (map (rbf_sum C W ws) X)) /\
    (forall v X, length v = prod ns -> X <> [] -> Forall (fun r => length r = d) X ->
       exists g, fa_set (fa_select f' (NStr "weights")) v = (g, Ok tt) /\
         predict g (rbfn_predict exp) (In2 (Mat d X)) = Ok (map (rbf_sum C W v) X)).
Proof.
  intros Hl E. apply train_ok in E; [|exact NE]. destruct E as (ps & E & ->). destruct G as [Gd Gx Gy Gn Gs Gh].
  destruct (rbfn_fit d xs ns h lam ys t Gx Gd Gn Gs Gh Hl Gy Ht ps E) as (C & W & ws & B & Lw & -> & Best).
  exists C, W, ws. rewrite <- (bs_n _ _ _ _ _ _ B). split; [apply B|]. split; [assumption|]. split; [reflexivity|]. split; [apply B|].
  split; [exact Best|]. split.
  - intros X N HX. rewrite predict_ok by assumption. now apply (rbfn_predict_ok d xs ns h C W).
  - intros v X Lv N HX. exists (Fa (rbfn_ps d C W v) (Some d) (Some ["weights"%string])). split.
    + unfold fa_select, fa_set. cbn [is_trained f_dim f_model f_sel name_list]. unfold fa_size. cbn [f_sel f_model].
      cbn [sizes lookup rbfn_ps String.eqb Ascii.eqb Bool.eqb ashape bind]. unfold prod. cbn [fold_right].
      rewrite Nat.mul_1_r, Nat.add_0_r, Lv, Nat.eqb_refl.
      cbn [set_values lookup rbfn_ps String.eqb Ascii.eqb Bool.eqb ashape]. unfold prod. cbn [fold_right]. replace (length C * (1 * 1))%nat with (length v) by lia.
      rewrite firstn_all, Nat.eqb_refl. reflexivity.
    + rewrite predict_ok by assumption. now apply (rbfn_predict_ok d xs ns h C W).
Qed.
Lemma rbfn_succeeds f : 0 <= lam ->
  (exists C W, get_centers_and_widths (In2 (Mat d xs)) ns h = Ok (Mat d C, Mat d W) /\
   (is_ok (snd (train f (rbfn_train exp ns h lam t) (In2 (Mat d xs)))) <->
    0 < lam \/ forall v, length v = prod ns -> (forall x, In x xs -> rbf_sum C W v x = 0) -> v = repeat 0 (prod ns))) /\
  (forall f' e, train f (rbfn_train exp ns h lam t) (In2 (Mat d xs)) = (f', Err e) -> e = LinAlgError).
Proof.
  intros Hl. destruct G as [Gd Gx Gy Gn Gs Gh]. destruct (basis_exists d xs ns h Gx Gd Gn Gs Gh) as (C & W & B).
  destruct (rbfn_train_ok d xs ns h lam ys t Gx Gd Gs Hl Gy Ht C W B) as [F1 F2]. split.
  - exists C, W. split; [apply B|]. rewrite train_is_ok by exact NE. rewrite <- (bs_n _ _ _ _ _ _ B). exact F1.
  - intros f' e E. apply train_fails in E; [|exact NE]. apply F2, E.
Qed.
End Data.

(** ** C68, for every np.exp *)
Lemma lwr_sum_bounds C W lines x lo hi : length lines = length C -> length W = length C -> C <> [] ->
  Forall (fun v => lo <= v <= hi) (line_values lines x) -> lo <= lwr_sum C W lines x <= hi.
Proof.
  intros Ll LW NC F. unfold lwr_sum.
  pose proof (dot_bounds lo hi (line_values lines x) (shares C W x)) as Q. rewrite shares_sum in Q by assumption. rewrite !Rmult_1_r in Q.
  apply Q; try assumption.
  - unfold line_values. rewrite map_length, shares_length; assumption.
  - eapply Forall_impl; [|apply shares_pos; assumption]. intros a Ha. cbn in Ha. lra.
Qed.
Lemma lwr_bounds ex d C W lines X ys lo hi i : exp_like ex ->
  Forall (fun r => length r = d) C -> Forall (fun r => length r = d) W -> length W = length C -> C <> [] ->
  Forall (fun r => Forall (fun s => s <> 0) r) W ->
  length lines = length C -> Forall (fun l => length (fst l) = d) lines -> Forall (fun r => length r = d) X ->
  lwr_predict ex [("centers"%string, PArr (mat_arr (Mat d C))); ("widths"%string, PArr (mat_arr (Mat d W)));
                  ("offsets"%string, PArr (Arr [length C; 1%nat] (map snd lines)));
                  ("slopes"%string, PArr (Arr [length C; d] (List.concat (map fst lines))))] (Mat d X) = Ok ys ->
  (i < length X)%nat -> Forall (fun v => lo <= v <= hi) (line_values lines (nth i X [])) -> lo <= nth i ys 0 <= hi.
Proof.
  intros E HC HW LW NC NZ Ll HL HX P Hi F.
  assert (Q : forall x, length (row_of ex C W true x) = length C /\ Forall (fun a => 0 <= a) (row_of ex C W true x) /\ rsum (row_of ex C W true x) = 1)
    by (intros; apply row_of_weights; assumption).
  fold (lwr_ps d C W lines) in P.
  (* predictions only need centers and widths *)
  assert (Pr : lwr_predict ex (lwr_ps d C W lines) (Mat d X) = Ok (map (fun x => dot (line_values lines x) (row_of ex C W true x)) X)).
  { apply lwr_predict_any; try assumption. now split. }
  rewrite Pr in P. assert (Ey : ys = map (fun x => dot (line_values lines x) (row_of ex C W true x)) X) by congruence. subst ys.
  rewrite (nth_map_lt (fun x => dot (line_values lines x) (row_of ex C W true x)) X i [] 0) by assumption.
  destruct (Q (nth i X [])) as (Lr & Nr & Sr).
  pose proof (dot_bounds lo hi (line_values lines (nth i X [])) (row_of ex C W true (nth i X []))) as D.
  rewrite Sr, !Rmult_1_r in D. apply D; try assumption. unfold line_values. rewrite map_length. congruence.
Qed.

(** ** C69 *)
Lemma spread_one d xs ns : per_dim d ns -> prod ns = 1%nat -> spread d xs ns.
Proof.
  intros [L P] E k Hk. left. clear -E P L Hk. subst d. unfold prod in E. revert k Hk. induction P as [|n ns Hn P IH]; cbn in *; intros k Hk; [lia|].
  apply Nat.eq_mul_1 in E. destruct E as [E1 E2]. destruct k; [assumption|]. apply IH; [assumption|lia].
Qed.
Lemma lwr_ignores ns h lam lam' t m ex : lwr_train ex ns h lam t m = lwr_train ex ns h lam' t m.
Proof. reflexivity. Qed.

(** ** C71 *)
Section Gpr.
Variables (d : nat) (xs : list (list R)) (ys : list R) (mx : R) (ls : list R) (t : input).
Hypothesis HS : samples d xs.
Hypothesis Hys : length ys = length xs.
Hypothesis Ht : targets_are t ys.
Hypothesis Hmx : mx <> 0.
Hypothesis Hls : length ls = d.
Hypothesis Hnz : Forall (fun l => l <> 0) ls.
Lemma gpr_model f f' : train f (gpr_train exp mx ls t) (In2 (Mat d xs)) = (f', Ok tt) ->
  predict f' (gpr_predict exp) (In2 (Mat d xs)) = Ok ys /\
  exists ws, length ws = length xs /\ forall X, X <> [] -> Forall (fun r => length r = d) X ->
    predict f' (gpr_predict exp) (In2 (Mat d X)) = Ok (map (fun x => mx * rbf_sum xs (repeat ls (length xs)) ws x) X).
Proof.
  intros E. apply train_ok in E; [|apply HS]. destruct E as (ps & E & ->).
  destruct (gpr_fit d xs mx ls ys t HS Hls Hnz Hys Ht ps E) as (ws & Lw & P1 & P2). split.
  - rewrite predict_ok by apply HS. exact P2.
  - exists ws. split; [assumption|]. intros X N HX. rewrite predict_ok by assumption. now apply P1.
Qed.
Lemma gpr_succeeds f : (is_ok (snd (train f (gpr_train exp mx ls t) (In2 (Mat d xs)))) <-> NoDup xs) /\
  (forall f' e, train f (gpr_train exp mx ls t) (In2 (Mat d xs)) = (f', Err e) -> e = LinAlgError).
Proof.
  destruct (gpr_train_ok d xs mx ls ys t HS Hmx Hls Hnz Hys Ht) as [F1 F2]. split.
  - rewrite train_is_ok by apply HS. exact F1.
  - intros f' e E. apply train_fails in E; [|apply HS]. apply F2, E.
Qed.
End Gpr.
Lemma gpr_one_length mx l t d xs ex : gpr_train ex mx [l] t (Mat d xs) = gpr_train ex mx (repeat l d) t (Mat d xs).
Proof.
  unfold gpr_train. cbn [mcols length]. rewrite repeat_length, Nat.eqb_refl. destruct (Nat.eqb_spec 1 d) as [<-|]; reflexivity.
Qed.

(** ** C72: one number of basis functions, several dimensions *)
Lemma mapM_fails {A B} (f : A -> res B) (P : exn -> Prop) l : (forall x e, In x l -> f x = Err e -> P e) ->
  (exists x e, In x l /\ f x = Err e) -> exists e, mapM f l = Err e /\ P e.
Proof.
  intros H (x & e & I & E). induction l as [|y l IH]; [contradiction|]. cbn [mapM].
  destruct (f y) as [b|e'] eqn:Ey; cbn [bind].
  - destruct I as [->|I]; [congruence|]. destruct IH as (e' & -> & Pe); [intros; eapply H; [right|]; eassumption|assumption|].
    exists e'. split; [reflexivity|assumption].
  - exists e'. split; [reflexivity|]. eapply H; [now left|eassumption].
Qed.
Lemma prod_repeat n d : prod (repeat n d) = (n ^ d)%nat.
Proof. unfold prod. induction d; cbn; [reflexivity|]. now rewrite IHd. Qed.
Lemma pow_gt n d : (2 <= n)%nat -> (2 <= d)%nat -> (n < n ^ d)%nat.
Proof.
  intros Hn Hd. destruct d as [|[|d]]; try lia. rewrite !Nat.pow_succ_r'.
  assert (n ^ d <> 0)%nat by (apply Nat.pow_nonzero; lia). nia.
Qed.
Section Scalar.
Variables (d : nat) (xs : list (list R)) (ys : list R) (n : nat) (h lam : R) (t : input).
Hypothesis Hn : (2 <= n)%nat.
Hypothesis Hd : (2 <= d)%nat.
Hypothesis G : grid_data d xs ys (repeat n d) h.
Hypothesis Ht : targets_are t ys.
Let NE : xs <> []. Proof. apply G. Qed.

Lemma scalar_basis : exists C W, basis d xs (repeat n d) h C W /\ length C = (n ^ d)%nat /\
  get_centers_and_widths (In2 (Mat d xs)) [n] h = Ok (Mat d C, Mat d W).
Proof.
  destruct G as [Gd Gx Gy Gn Gs Gh]. destruct (basis_exists d xs _ h Gx Gd Gn Gs Gh) as (C & W & B). exists C, W.
  split; [assumption|]. split; [rewrite (bs_n _ _ _ _ _ _ B); apply prod_repeat|]. rewrite scalar_n by lia. apply B.
Qed.
Lemma rbfn_scalar f : 0 < lam ->
  exists f', train f (rbfn_train exp [n] h lam t) (In2 (Mat d xs)) = (f', Ok tt) /\
    forall X, X <> [] -> Forall (fun r => length r = d) X ->
      predict f' (rbfn_predict exp) (In2 (Mat d X)) = Err ValueError \/
      predict f' (rbfn_predict exp) (In2 (Mat d X)) = Err IndexError.
Proof.
  intros Hl. destruct scalar_basis as (C & W & B & LC & E). destruct G as [Gd Gx Gy Gn Gs Gh].
  assert (XP : (0 < length xs)%nat) by (destruct xs; [contradiction|cbn; lia]).
  assert (Hn0 : (0 < n)%nat) by lia.
  pose proof (pow_gt n d Hn Hd) as PG.
  set (A := act_mat xs C W).
  assert (NA : nrows A = length xs) by apply act_mat_nrows.
  destruct (fit_ok false lam A (length C) (act_mat_wf d xs (repeat n d) h C W B) eq_refl None ys
              ltac:(rewrite NA; assumption) I ltac:(rewrite NA; assumption) (Rlt_le _ _ Hl)
              ltac:(intros; cbn; lra) t Ht) as [F1 _].
  destruct (proj2 F1 (or_introl Hl)) as [wls Ew].
  destruct (fit_best false lam A (length C) (act_mat_wf d xs (repeat n d) h C W B) eq_refl None ys
              ltac:(rewrite NA; assumption) I ltac:(rewrite NA; assumption) (Rlt_le _ _ Hl)
              ltac:(intros; cbn; lra) t wls Ht Ew) as (s & o & (Ls & _ & _) & ->).
  set (k := (n ^ d / n)%nat).
  assert (Hk : (n ^ d = n * k)%nat).
  { unfold k. destruct d as [|d']; [lia|]. rewrite Nat.pow_succ_r', Nat.mul_comm, Nat.div_mul by lia. lia. }
  assert (Hk1 : k <> 1%nat) by nia.
  assert (R0 : reshape n s = Ok (Mat k (chunks k n s))).
  { unfold reshape. destruct n as [|n']; [lia|]. rewrite Ls, LC. fold k.
    replace (S n' ^ d mod S n')%nat with 0%nat; [reflexivity|]. rewrite Hk, Nat.mul_comm, Nat.mod_mul by lia. reflexivity. }
  set (ps := [("centers"%string, PArr (mat_arr (Mat d C))); ("widths"%string, PArr (mat_arr (Mat d W)));
              ("weights"%string, PArr (mat_arr (Mat k (chunks k n s))))]).
  exists (Fa ps (Some d) (f_sel f)). split.
  - apply train_ok; [exact NE|]. exists ps. split; [|reflexivity].
    unfold rbfn_train. rewrite E. cbn [bind].
    rewrite (fa_activations_ok exp d C W (basis_kset _ _ _ _ _ _ B)) by (try reflexivity; apply Gx). cbn [bind].
    change (Mat (length C) (map (row_of exp C W false) xs)) with A.
    unfold as_columns. unfold nrows in NA. destruct (mrows A) eqn:EA; [cbn in NA; lia|]. cbn [bind].
    rewrite Ew. cbn [bind]. unfold fit_params, coeff_list, param_arr. cbn [lookup String.eqb Ascii.eqb Bool.eqb bind].
    assert (Ea : adata (beta_arr t s) = s) by (destruct Ht as [-> | ->]; reflexivity). rewrite Ea.
    unfold prod. cbn [fold_right]. rewrite Nat.mul_1_r, R0. reflexivity.
  - intros X N HX. rewrite predict_ok by assumption. unfold rbfn_predict.
    rewrite (fa_activations_ok exp d C W (basis_kset _ _ _ _ _ _ B)) by (try reflexivity; assumption). cbn [bind].
    unfold param_arr. cbn [lookup ps String.eqb Ascii.eqb Bool.eqb bind]. unfold weighted_sum. cbn [mcols]. unfold nrows. cbn [mrows]. rewrite map_length.
    assert (Sh : ashape (mat_arr (Mat k (chunks k n s))) = [n; k]).
    { unfold mat_arr, nrows. cbn [ashape mrows mcols]. now rewrite chunks_length. }
    assert (Wa : forall ii i e, weight_at (length X) (mat_arr (Mat k (chunks k n s))) ii i = Err e -> e = ValueError \/ e = IndexError).
    { intros ii i e. unfold weight_at. rewrite Sh. destruct (Nat.ltb _ _); [|right; congruence].
      destruct (Nat.eqb _ _); [discriminate|]. destruct (Nat.eqb _ _); [discriminate|]. left; congruence. }
    destruct (mapM_fails (fun ii => mapM (weight_at (length X) (mat_arr (Mat k (chunks k n s))) ii) (seq 0 (length X)))
                (fun e => e = ValueError \/ e = IndexError) (seq 0 (length C))) as (e & -> & Pe).
    + intros ii e _. clear -Wa. generalize (seq 0 (length X)). intros l. revert e. induction l as [|i l IH]; intros e; cbn [mapM]; [discriminate|].
      destruct (weight_at _ _ ii i) as [r|e'] eqn:Ei; cbn [bind].
      * destruct (mapM _ l) as [r'|e'']; cbn [bind]; [discriminate|]. intros Q. apply IH. congruence.
      * intros Q. apply (Wa ii i). congruence.
    + exists n. assert (LX : (0 < length X)%nat) by (destruct X; [contradiction|cbn; lia]).
      destruct (length X) as [|m] eqn:EX; [lia|]. exists IndexError. split; [apply in_seq; lia|].
      cbn [seq mapM]. unfold weight_at at 1. rewrite Sh, Nat.ltb_irrefl. reflexivity.
    + cbn [bind]. destruct Pe as [-> | ->]; auto.
Qed.
Hypothesis Ht1 : t = In1 ys.
Lemma lwr_scalar f : determined true d xs (ones (length xs)) ->
  exists f', train f (lwr_train exp [n] h lam t) (In2 (Mat d xs)) = (f', Ok tt) /\
    forall X, X <> [] -> Forall (fun r => length r = d) X ->
      predict f' (lwr_predict exp) (In2 (Mat d X)) = Err ValueError.
Proof.
  intros Det. destruct scalar_basis as (C & W & B & LC & E). destruct G as [Gd Gx Gy Gn Gs Gh].
  pose proof (pow_gt n d Hn Hd) as PG.
  set (line := fun k => let* wls := wls_train true 0 (Some (share_weights xs C W k)) t (Mat d xs) in
     let* slope := param_arr wls "slope" in
     let* slope := slope_row d slope in
     let* offset := param_arr wls "offset" in
     let* offset := the_number offset in Ok (slope, offset)).
  assert (A : forall l, Forall (fun k => (k < length C)%nat) l -> exists r, mapM line l = Ok r /\ Forall (fun l => length (fst l) = d) r).
  { induction 1 as [|k l Hk F (r & IH & Fr)]; [exists []; split; [reflexivity|constructor]|].
    destruct (line_fit d xs _ h ys t Gx Gd Gn Gs Gy Ht (or_introl Ht1) C W B k Hk) as (L1 & L2 & _).
    destruct (proj2 L2 Det) as [y Ey]. exists (y :: r). cbn [mapM]. unfold line at 1. rewrite Ey. cbn [bind]. rewrite IH. split; [reflexivity|].
    constructor; [|assumption]. apply (L1 _ Ey). }
  destruct (A (seq 0 n)) as (lines & El & Fl).
  { apply Forall_forall. intros k Hk. apply in_seq in Hk. lia. }
  pose proof (mapM_ok_length _ _ _ El) as Ll. rewrite seq_length in Ll.
  set (ps := [("centers"%string, PArr (mat_arr (Mat d C))); ("widths"%string, PArr (mat_arr (Mat d W)));
              ("offsets"%string, PArr (Arr [n; 1%nat] (map snd lines)));
              ("slopes"%string, PArr (Arr [n; d] (List.concat (map fst lines))))]).
  exists (Fa ps (Some d) (f_sel f)). split.
  - apply train_ok; [exact NE|]. exists ps. split; [|reflexivity].
    unfold lwr_train. rewrite E. cbn [bind mcols].
    rewrite (fa_activations_ok exp d C W (basis_kset _ _ _ _ _ _ B)) by (try reflexivity; apply Gx). cbn [bind].
    unfold prod. cbn [fold_right]. rewrite Nat.mul_1_r.
    rewrite (mapM_ext _ line).
    + rewrite El. reflexivity.
    + intros k Hk. apply in_seq in Hk. unfold mcolumn. cbn [mcols]. destruct (Nat.ltb_spec k (length C)); [|lia]. cbn [bind]. unfold line.
      f_equal. f_equal. f_equal. unfold nrows. cbn [mrows]. rewrite map_length.
      apply (nth_ext _ _ 0 0); [now rewrite map_length, seq_length, sw_length|]. rewrite map_length, seq_length. intros i Hi.
      rewrite nth_map_seq, sw_nth by assumption. unfold mget. cbn [mrows].
      rewrite (nth_map_lt (row_of exp C W true) xs i [] []) by assumption. f_equal. apply (row_of_shares d); try apply B.
      destruct Gx as [_ Fx]. rewrite Forall_forall in Fx. apply Fx. now apply nth_In.
  - intros X N HX. rewrite predict_ok by assumption. unfold lwr_predict, get_lines, param_arr.
    cbn [lookup ps String.eqb Ascii.eqb Bool.eqb bind ashape adata]. rewrite map_length, Ll.
    assert (Ch : chunks d n (List.concat (map fst lines)) = map fst lines).
    { rewrite <- Ll, <- (map_length fst). apply chunks_concat. apply Forall_map. assumption. }
    rewrite Ch. unfold nrows at 1. cbn [mrows mcols]. rewrite map_length, Ll, Nat.ltb_irrefl, Nat.eqb_refl. cbn [negb andb bind].
    rewrite (fa_activations_ok exp d C W (basis_kset _ _ _ _ _ _ B)) by (try reflexivity; assumption). cbn [bind].
    unfold mtimes. cbn [mcols mtab]. destruct (Nat.eqb_spec n (length C)); [lia|]. destruct (Nat.eqb_spec n 1); [lia|].
    destruct (Nat.eqb_spec (length C) 1); [lia|]. reflexivity.
Qed.
End Scalar.
