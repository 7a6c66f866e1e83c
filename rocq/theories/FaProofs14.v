(** Inputs that do not differ in a dimension with several basis functions. *)
From Coq Require Import String.
From Verif Require Import Base BaseLemmas ParamModel FaModel FaSpec FaProofs FaProofs2 FaProofs3 FaProofs4 FaProofs5 FaProofs6 FaProofs7 FaProofs8 FaProofs9 FaProofs10 FaProofs11 FaProofs12 FaProofs13.
Open Scope list_scope.
Open Scope R_scope.

Lemma not_spread d xs ns : ~ spread d xs ns -> exists k, (k < d)%nat /\ nth k ns 0%nat <> 1%nat /\
  forall x y, In x xs -> In y xs -> nth k x 0 = nth k y 0.
Proof.
  intros N. destruct (Classical_Prop.classic (exists k, (k < d)%nat /\ nth k ns 0%nat <> 1%nat /\
    forall x y, In x xs -> In y xs -> nth k x 0 = nth k y 0)) as [|M]; [assumption|]. exfalso. apply N. intros k Hk.
  destruct (Nat.eq_dec (nth k ns 0%nat) 1) as [|N1]; [now left|right].
  destruct (Classical_Prop.classic (exists x y, In x xs /\ In y xs /\ nth k x 0 <> nth k y 0)) as [|Q]; [assumption|].
  exfalso. apply M. exists k. split; [assumption|]. split; [assumption|]. intros x y Hx Hy.
  destruct (Req_EM_T (nth k x 0) (nth k y 0)) as [|D]; [assumption|]. exfalso. apply Q. exists x, y. auto.
Qed.
Lemma factor_cases ex x c w : (exists r, factor ex x c w = Ok r) \/ factor ex x c w = Err NonFinite.
Proof. unfold factor. destruct (Req_EM_T w 0); [destruct (Req_EM_T x c)|]; eauto. Qed.
Lemma prodM_nan n f k : (k < n)%nat -> (forall i, (exists r, f i = Ok r) \/ f i = Err NonFinite) -> f k = Err NonFinite ->
  prodM n f = Err NonFinite.
Proof.
  induction n as [|n IH]; intros Hk F E; [lia|]. cbn [prodM]. destruct (Nat.eq_dec k n) as [->|Ne].
  - assert (A : (exists r, prodM n f = Ok r) \/ prodM n f = Err NonFinite).
    { clear -F. induction n as [|n IH]; cbn [prodM]; [left; eexists; reflexivity|].
      destruct IH as [[r ->] | ->]; [|now right]. cbn [bind]. destruct (F n) as [[r' ->] | ->]; [left; eexists; reflexivity|now right]. }
    destruct A as [[r ->] | ->]; [|reflexivity]. cbn [bind]. now rewrite E.
  - rewrite IH by (try assumption; lia). reflexivity.
Qed.
Lemma mapM_first {A B} (f : A -> res B) e x l : f x = Err e -> mapM f (x :: l) = Err e.
Proof. intros E. cbn. now rewrite E. Qed.

Section Constant.
Variables (ex : R -> R) (d : nat) (xs : list (list R)) (ns : list nat) (h : R).
Hypothesis HS : samples d xs.
Hypothesis HD : (0 < d)%nat.
Hypothesis HP : per_dim d ns.
Hypothesis Hh : 0 < h < 1.
Hypothesis HN : ~ spread d xs ns.

Lemma constant_activations : exists C W, get_centers_and_widths (In2 (Mat d xs)) ns h = Ok (Mat d C, Mat d W) /\
  Forall (fun r => length r = d) C /\ Forall (fun r => length r = d) W /\
  forall nb, activations ex (In2 (Mat d xs)) (In2 (Mat d C)) (In2 (Mat d W)) nb = Err NonFinite.
Proof.
  destruct HP as [L P]. destruct (centers_and_widths d xs ns h HS HD L P Hh) as (los & his & Rg & E).
  rewrite grid_repeat in E.
  destruct (not_spread d xs ns HN) as (k & Hk & Nk & Eqk).
  set (C := grid _) in E. set (W := repeat _ _) in E.
  exists C, W. split; [exact E|].
  assert (FC : Forall (fun r => length r = d) C).
  { pose proof (grid_rows (map (fun dd => linspace (nth dd los 0) (nth dd his 0) (nth dd ns 0%nat)) (seq 0 d))) as GR.
    now rewrite map_length, seq_length in GR. }
  assert (FW : Forall (fun r => length r = d) W).
  { apply Forall_forall. intros r Hr. apply repeat_spec in Hr. subst r. now rewrite map_length, seq_length. }
  split; [assumption|]. split; [assumption|]. intros nb.
  assert (LC : length C = prod ns).
  { unfold C. rewrite grid_length, map_map. f_equal. transitivity (map (fun k => nth k ns 0%nat) (seq 0 d)); [apply map_ext; intros; apply linspace_length|].
    rewrite <- L. symmetry. apply list_eq_map_nth. }
  assert (LW : length W = length C).
  { rewrite LC. unfold W. rewrite repeat_length. f_equal. rewrite <- L. symmetry. apply list_eq_map_nth. }
  assert (NP : (1 < nth k ns 0)%nat).
  { rewrite Forall_forall in P. assert (0 < nth k ns 0)%nat by (apply P; apply nth_In; lia). lia. }
  assert (N1 : (1 < length C)%nat).
  { rewrite LC. clear -NP P Hk L. subst d. unfold prod. revert k Hk NP. induction P as [|n ns Hn P IH]; intros [|k] Hk NP; cbn in *; try lia.
    - pose proof (prod_pos ns P) as Q. unfold prod in Q. nia.
    - specialize (IH k ltac:(lia) NP). nia. }
  assert (EL : nth k los 0 = nth k his 0).
  { destruct (Rg k Hk) as (I1 & I2 & _). apply in_map_iff in I1, I2. destruct I1 as (x1 & <- & J1). destruct I2 as (x2 & <- & J2). now apply Eqk. }
  assert (CK : forall c, In c C -> nth k c 0 = nth k los 0).
  { intros c Hc. apply (in_centers d los his ns c) in Hc. destruct Hc as [_ Hc]. specialize (Hc k Hk). apply in_linspace in Hc.
    destruct Hc as (i & _ & ->). rewrite EL. ring. }
  assert (WK : forall w, In w W -> nth k w 0 = 0).
  { intros w Hw. apply repeat_spec in Hw. subst w. rewrite nth_map_seq by assumption. unfold dim_width, the_width.
    destruct (Nat.leb_spec (nth k ns 0%nat) 1); [lia|]. rewrite EL. replace (nth k his 0 - nth k his 0) with 0 by ring.
    unfold Rdiv. rewrite Rmult_0_l, Rabs_R0. ring. }
  assert (A0 : activation ex d (Mat d xs) (Mat d C) (Mat d W) 0 0 = Err NonFinite).
  { unfold activation. apply (prodM_nan d _ k Hk); [intros; apply factor_cases|]. unfold mget. cbn [mrows].
    rewrite (WK (nth 0 W [])) by (apply nth_In; lia). rewrite (CK (nth 0 C [])) by (apply nth_In; lia).
    destruct HS as [NE _]. assert (I0 : In (nth 0 xs []) xs) by (apply nth_In; destruct xs; [contradiction|cbn; lia]).
    destruct (Rg k Hk) as (I1 & _). apply in_map_iff in I1. destruct I1 as (x1 & E1 & J1).
    rewrite <- E1, (Eqk _ _ I0 J1). unfold factor. destruct (Req_EM_T 0 0) as [_|]; [|contradiction].
    destruct (Req_EM_T (nth k x1 0) (nth k x1 0)) as [_|]; [reflexivity|contradiction]. }
  unfold activations. cbn [shape0 mcols].
  assert (E3 : (if Nat.eqb d 1 then let* c := as_column (nrows (Mat d C)) (In2 (Mat d C)) in let* w := as_column (nrows (Mat d C)) (In2 (Mat d W)) in
                 let* x := as_column (nrows (Mat d xs)) (In2 (Mat d xs)) in Ok (c, w, x) else Ok (Mat d C, Mat d W, Mat d xs)) = Ok (Mat d C, Mat d W, Mat d xs)).
  { destruct (Nat.eqb_spec d 1) as [D1|]; [|reflexivity].
    rewrite as_column_wf by (try exact FC; exact D1). cbn [bind].
    replace (nrows (Mat d C)) with (nrows (Mat d W)) by (unfold nrows; cbn; exact LW).
    rewrite as_column_wf by (try exact FW; exact D1). cbn [bind]. rewrite as_column_wf by (try apply HS; exact D1). reflexivity. }
  rewrite E3. cbn [bind mcols]. unfold nrows at 1 2 3. cbn [mrows].
  destruct (Nat.eqb_spec (length C) 1) as [|_]; [lia|]. rewrite Bool.andb_false_r.
  rewrite LW, Nat.ltb_irrefl, Nat.ltb_irrefl. cbn [orb].
  unfold nrows at 1. cbn [mrows]. destruct HS as [NE _]. destruct (length xs) as [|m] eqn:Ex; [destruct xs; [contradiction|discriminate]|].
  unfold nrows. cbn [mrows]. destruct (length C) as [|nc] eqn:EC; [lia|].
  change (seq 0 (S m)) with (0%nat :: seq 1 m). change (seq 0 (S nc)) with (0%nat :: seq 1 nc).
  rewrite Ex. change (seq 0 (S m)) with (0%nat :: seq 1 m).   rewrite (mapM_first _ NonFinite 0%nat (seq 1 m)); [reflexivity|]. rewrite (mapM_first _ NonFinite 0%nat (seq 1 nc)); [reflexivity|exact A0].
Qed.
Lemma constant_rbfn lam t f : train f (rbfn_train ex ns h lam t) (In2 (Mat d xs)) = (f, Err NonFinite).
Proof.
  destruct constant_activations as (C & W & E & FC & FW & A). unfold train, as_columns. cbn [mrows].
  destruct HS as [NE _]. destruct xs as [|x0 xs'] eqn:Ex; [contradiction|]. rewrite <- Ex in *.
  unfold rbfn_train. rewrite E. cbn [bind]. unfold fa_activations, param_arr. cbn [lookup String.eqb Ascii.eqb Bool.eqb bind].
  rewrite arr_input_mat by assumption. cbn [bind]. rewrite arr_input_mat by assumption. cbn [bind]. rewrite A. reflexivity.
Qed.
Lemma constant_lwr lam t f : train f (lwr_train ex ns h lam t) (In2 (Mat d xs)) = (f, Err NonFinite).
Proof.
  destruct constant_activations as (C & W & E & FC & FW & A). unfold train, as_columns. cbn [mrows].
  destruct HS as [NE _]. destruct xs as [|x0 xs'] eqn:Ex; [contradiction|]. rewrite <- Ex in *.
  unfold lwr_train. rewrite E. cbn [bind mcols]. unfold fa_activations, param_arr. cbn [lookup String.eqb Ascii.eqb Bool.eqb bind].
  rewrite arr_input_mat by assumption. cbn [bind]. rewrite arr_input_mat by assumption. cbn [bind]. rewrite A. reflexivity.
Qed.
End Constant.
