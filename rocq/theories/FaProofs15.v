(** LWR with equal lines, the ignored regularization, batches of inputs. *)
From Coq Require Import String.
From Verif Require Import Base BaseLemmas ParamModel FaModel FaSpec FaProofs FaProofs2 FaProofs3 FaProofs4 FaProofs5 FaProofs6 FaProofs7 FaProofs8 FaProofs9 FaProofs10 FaProofs11 FaProofs12 FaProofs13 FaProofs14.
Open Scope list_scope.
Open Scope R_scope.

(** ** C68 *)
Lemma lwr_sum_equal C W lines x v : length lines = length C -> length W = length C -> C <> [] ->
  Forall (fun l => affine (fst l) (snd l) x = v) lines -> lwr_sum C W lines x = v.
Proof.
  intros Ll LW NC F. assert (Q : v <= lwr_sum C W lines x <= v).
  { apply lwr_sum_bounds; try assumption. unfold line_values. apply Forall_map. eapply Forall_impl; [|exact F]. cbn. intros a <-. lra. }
  lra.
Qed.
(** linear data are recovered *)
Lemma lwr_exact d xs ys ns h lam t f f' s o : grid_data d xs ys ns h -> targets_are t ys -> t = In1 ys \/ d = 1%nat ->
  length s = d -> (forall i, (i < length xs)%nat -> nth i ys 0 = affine s o (nth i xs [])) ->
  train f (lwr_train exp ns h lam t) (In2 (Mat d xs)) = (f', Ok tt) ->
  forall X, X <> [] -> Forall (fun r => length r = d) X ->
    predict f' (lwr_predict exp) (In2 (Mat d X)) = Ok (map (affine s o) X).
Proof.
  intros G Ht Ht1 Ls Hy E X NX HX. destruct (lwr_model d xs ys ns h lam t G Ht Ht1 f f' E) as (C & W & lines & _ & Ll & LC & LW & Best & Pr).
  rewrite Pr by assumption. f_equal. apply map_ext. intros x.
  assert (NC : C <> []).
  { intros ->. cbn in LC. pose proof (gd_ns _ _ _ _ _ G) as [_ P]. clear -LC P. unfold prod in LC.
    induction P as [|n ns Hn P IH]; cbn in LC; [discriminate|]. symmetry in LC. apply Nat.mul_eq_0 in LC. destruct LC; [lia|]. apply IH. congruence. }
  apply lwr_sum_equal; [congruence|congruence|assumption|].
  apply Forall_nth. intros k dflt Hk. rewrite (nth_indep _ dflt ([], 0)) by assumption.
  specialize (Best k ltac:(congruence)).
  apply (best_exact _ _ _ _ _ _ _ s o) in Best; try assumption.
  - destruct Best as [-> ->]. reflexivity.
  - apply Forall_map. apply Forall_forall. intros y _.
    destruct (Nat.lt_ge_cases k (length (shares C W y))) as [Lt|Ge].
    + assert (LW' : length W = length C) by congruence. pose proof (shares_pos C W y LW') as Sp. rewrite Forall_forall in Sp.
      specialize (Sp _ (nth_In _ 0 Lt)). cbn in Sp. lra.
    + rewrite nth_overflow by assumption. lra.
  - now rewrite map_length.
  - discriminate.
Qed.

(** ** C69 *)
Lemma best_unique u d xs ys ws lam s o s' o' : best u d xs ys ws lam s o -> best u d xs ys ws lam s' o' -> s = s' /\ o = o'.
Proof.
  intros (L & Z & B) (L' & Z' & B'). destruct (B s' o' L' Z') as [B1 B2]. destruct (B' s o L Z) as [B3 B4]. apply B4. lra.
Qed.

(** ** C86 *)
Definition batchwise {B : Type} (p : input -> res (list B)) (d : nat) : Prop :=
  exists F : list R -> B, forall X, X <> [] -> Forall (fun r => length r = d) X -> p (In2 (Mat d X)) = Ok (map F X).
Lemma wls_batch u lam w d xs ys f f' : weighted_data d xs ys (weights_or_ones w (length xs)) -> 0 <= lam ->
  train f (wls_train u lam w (In1 ys)) (In2 (Mat d xs)) = (f', Ok tt) ->
  exists F, forall X, X <> [] -> Forall (fun r => length r = d) X ->
    predict f' wls_predict (In2 (Mat d X)) = Ok (In1 (map F X)).
Proof.
  intros HD Hl E. destruct (wls_best u lam w d xs ys (In1 ys) HD Hl (or_introl eq_refl) f f' E) as (s & o & _ & P).
  exists (affine s o). exact P.
Qed.
Lemma train_vector f fn l : train f fn (In1 l) = train f fn (In2 (column l)).
Proof. destruct l; reflexivity. Qed.
Lemma predict_vector {B} f (pf : list (string * pval) -> mat -> res B) l : predict f pf (In1 l) = predict f pf (In2 (column l)).
Proof. destruct l; reflexivity. Qed.
