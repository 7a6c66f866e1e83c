(** Proofs: predictions are affine in weights, slopes and offsets. *)
From Coq Require Import String.
From Verif Require Import Base BaseLemmas ParamModel ParamSpec ParamProofs FaModel TrajModel DmpModel DmpSpec CppModel CppSpec CppProofs
  UpdatersModel OptSpec OptProofs2 ExploreSpec ViaSpec.
Open Scope string_scope.
Open Scope R_scope.

Lemma firstn_between t n : forall x y, firstn n (between t x y) = between t (firstn n x) (firstn n y).
Proof. unfold between. induction n as [|n IH]; intros [|a x] [|b y]; cbn; try reflexivity. f_equal; apply IH. Qed.
Lemma skipn_between t n : forall x y, length x = length y -> skipn n (between t x y) = between t (skipn n x) (skipn n y).
Proof. unfold between. induction n as [|n IH]; intros [|a x] [|b y] L; cbn in *; try reflexivity; try lia. apply IH. lia. Qed.
Lemma between_self t : forall x, between t x x = x.
Proof. unfold between. induction x as [|a x IH]; cbn; [reflexivity|]. apply (f_equal2 cons); [ring|exact IH]. Qed.

Section T.
Variable t : R.
(** ** dictionaries with values in between *)
Definition mixed (a b c : option pval) : Prop :=
  (exists s x y, a = Some (PArr (Arr s x)) /\ b = Some (PArr (Arr s y)) /\ length x = length y /\ c = Some (PArr (Arr s (between t x y)))) \/
  (a = b /\ c = a).
Definition blend (mx my mz : list (string * pval)) : Prop := forall name, mixed (lookup mx name) (lookup my name) (lookup mz name).
Lemma blend_refl m : blend m m m.
Proof. intros name. now right. Qed.
Lemma mixed_shape a b c s x : mixed a b c -> a = Some (PArr (Arr s x)) ->
  exists y, b = Some (PArr (Arr s y)) /\ c = Some (PArr (Arr s (between t x y))) /\ length x = length y.
Proof.
  intros [(s0 & x0 & y & -> & -> & L & ->)|(<- & ->)] E.
  - injection E as -> ->. exists y. auto.
  - exists x. now rewrite between_self.
Qed.
Lemma blend_assign mx my mz l s x y : blend mx my mz -> length x = length y ->
  blend (assign mx l (PArr (Arr s x))) (assign my l (PArr (Arr s y))) (assign mz l (PArr (Arr s (between t x y)))).
Proof.
  intros B L name. destruct (string_dec name l) as [->|N].
  - rewrite !lookup_assign_eq. left. exists s, x, y. auto.
  - rewrite !lookup_assign_neq by exact N. apply B.
Qed.
Lemma set_values_blend sel : forall mx my mz vx vy mx' my', blend mx my mz -> length vx = length vy ->
  set_values mx sel vx = (mx', Ok tt) -> set_values my sel vy = (my', Ok tt) ->
  exists mz', set_values mz sel (between t vx vy) = (mz', Ok tt) /\ blend mx' my' mz'.
Proof.
  induction sel as [|l sel IH]; intros mx my mz vx vy mx' my' B L Ex Ey; cbn [set_values] in *.
  { injection Ex as <-. injection Ey as <-. exists mz. now split. }
  destruct (lookup mx l) as [[ |[[|s0 s] dx]| ]|] eqn:El; try discriminate.
  destruct (mixed_shape _ _ _ _ _ (B l) El) as (dy & E1 & E2 & _). rewrite E1 in Ey. rewrite E2. cbv zeta in *.
  set (n := prod (s0 :: s)) in *.
  destruct (Nat.eqb_spec (length (firstn n vx)) n) as [Lx|]; [|discriminate].
  destruct (Nat.eqb_spec (length (firstn n vy)) n) as [Ly|]; [|discriminate].
  rewrite firstn_between, skipn_between by exact L. rewrite (between_length _ _ _ n) by assumption. rewrite Nat.eqb_refl.
  apply (IH _ _ _ _ _ _ _ (blend_assign _ _ _ l (s0 :: s) _ _ B (eq_trans Lx (eq_sym Ly)))); [rewrite !skipn_length; lia|exact Ex|exact Ey].
Qed.

(** ** function approximators *)
Definition fa_mixed (fx fy fz : fa) : Prop :=
  f_dim fx = f_dim fy /\ f_dim fz = f_dim fx /\ blend (f_model fx) (f_model fy) (f_model fz).
Lemma fa_set_blend f vx vy fx fy : length vx = length vy -> fa_set f vx = (fx, Ok tt) -> fa_set f vy = (fy, Ok tt) ->
  exists fz, fa_set f (between t vx vy) = (fz, Ok tt) /\ fa_mixed fx fy fz.
Proof.
  intros L Ex Ey. unfold fa_set in *. destruct (is_trained f); [|discriminate]. destruct (fa_size f) as [n|]; [|discriminate].
  rewrite (between_length t vx vy (length vx)) by auto. rewrite <- L in Ey. destruct (Nat.eqb (length vx) n); [|discriminate].
  destruct (f_sel f) as [sel|]; [|discriminate].
  destruct (set_values (f_model f) sel vx) as [mx rx] eqn:E1, (set_values (f_model f) sel vy) as [my ry] eqn:E2.
  injection Ex as <- ->. injection Ey as <- ->.
  destruct (set_values_blend sel _ _ _ _ _ _ _ (blend_refl (f_model f)) L E1 E2) as (mz & Ez & B). rewrite Ez.
  eexists. split; [reflexivity|]. repeat split; exact B.
Qed.
Inductive fas_mixed : list fa -> list fa -> list fa -> Prop :=
  | fm_nil : fas_mixed [] [] []
  | fm_cons x y z xs ys zs : fa_mixed x y z -> fas_mixed xs ys zs -> fas_mixed (x :: xs) (y :: ys) (z :: zs).
Lemma unit_eta (r : res unit) : match r with Ok _ => True | Err _ => False end -> r = Ok tt.
Proof. now destruct r as [[]|]. Qed.
Lemma fas_set_blend fs : forall vx vy fx fy rx ry, length vx = length vy -> fas_set fs vx = (fx, Ok rx) -> fas_set fs vy = (fy, Ok ry) ->
  exists fz, fas_set fs (between t vx vy) = (fz, Ok (between t rx ry)) /\ length rx = length ry /\ fas_mixed fx fy fz.
Proof.
  induction fs as [|f fs IH]; intros vx vy fx fy rx ry L Ex Ey; cbn [fas_set] in *.
  { injection Ex as <- <-. injection Ey as <- <-. exists []. repeat split; [exact L|constructor]. }
  destruct (is_trained f) eqn:Et.
  - destruct (fa_size f) as [n|]; [|discriminate].
    destruct (fa_set f (firstn n vx)) as [gx [[]|]] eqn:Ax; [|discriminate]. destruct (fa_set f (firstn n vy)) as [gy [[]|]] eqn:Ay; [|discriminate].
    destruct (fas_set fs (skipn n vx)) as [hx qx] eqn:Bx, (fas_set fs (skipn n vy)) as [hy qy] eqn:By.
    injection Ex as <- ->. injection Ey as <- ->.
    destruct (fa_set_blend f (firstn n vx) (firstn n vy) gx gy) as (gz & Az & M); [rewrite !firstn_length; lia|exact Ax|exact Ay|].
    destruct (IH (skipn n vx) (skipn n vy) hx hy rx ry) as (hz & Bz & Lr & Ms); [rewrite !skipn_length; lia|exact Bx|exact By|].
    rewrite firstn_between, skipn_between, Az, Bz by exact L. eexists. split; [reflexivity|]. split; [exact Lr|]. now constructor.
  - destruct (fas_set fs vx) as [hx qx] eqn:Bx, (fas_set fs vy) as [hy qy] eqn:By.
    injection Ex as <- ->. injection Ey as <- ->.
    destruct (IH vx vy hx hy rx ry L Bx By) as (hz & Bz & Lr & Ms). rewrite Bz. eexists. split; [reflexivity|]. split; [exact Lr|].
    constructor; [|exact Ms]. repeat split. apply blend_refl.
Qed.
Lemma fas_mixed_nth xs ys zs : fas_mixed xs ys zs -> forall i, 
  match nth_error xs i, nth_error ys i, nth_error zs i with
  | Some x, Some y, Some z => fa_mixed x y z
  | None, None, None => True
  | _, _, _ => False
  end.
Proof. induction 1 as [|x y z xs ys zs H _ IH]; intros [|i]; cbn; trivial. apply IH. Qed.
End T.

(** ** predictions *)
Section E.
Variable ex : R -> R.
Lemma rbfn_value kinds i ps n c w v ph row : kinds i = KRbfn -> (0 < n)%nat ->
  lookup ps "centers" = Some (PArr (Arr [n; 1%nat] c)) -> length c = n ->
  lookup ps "widths" = Some (PArr (Arr [n; 1%nat] w)) -> length w = n ->
  lookup ps "weights" = Some (PArr (Arr [n; 1%nat] v)) ->
  mapM (one_act ex c w ph) (seq 0 n) = Ok row ->
  py_predict ex kinds i ps ph = Ok (sumn n (fun j => nth j row 0 * nth j v 0)).
Proof.
  intros Ek Hn Ec Lc Ew Lw Ev Er. unfold py_predict. rewrite Ek. unfold rbfn_predict.
  rewrite (py_acts ex false _ n c w) by trivial. cbn [andb]. rewrite Er. cbn [bind].
  unfold param_arr. rewrite Ev. cbn [bind]. unfold weighted_sum. unfold nrows. cbn [mcols mrows length]. cbn [seq mapM].
  rewrite (mapM_pure _ (fun ii => [nth ii v 0])).
  2:{ intros ii Hi. apply in_seq in Hi. unfold weight_at. cbn [ashape adata]. replace (Nat.ltb ii n) with true by (symmetry; apply Nat.ltb_lt; lia).
      reflexivity. }
  cbn [bind map one]. f_equal. apply sumn_ext. intros j Hj. unfold mget. cbn [mrows nth].
  rewrite (nth_map_lt _ _ _ 0%nat) by (rewrite seq_length; lia). now rewrite seq_nth by lia.
Qed.
Lemma lwr_value kinds i ps n c w v o ph row : kinds i = KLwr -> (0 < n)%nat ->
  lookup ps "centers" = Some (PArr (Arr [n; 1%nat] c)) -> length c = n ->
  lookup ps "widths" = Some (PArr (Arr [n; 1%nat] w)) -> length w = n ->
  lookup ps "slopes" = Some (PArr (Arr [n; 1%nat] v)) -> length v = n ->
  lookup ps "offsets" = Some (PArr (Arr [n; 1%nat] o)) -> length o = n ->
  (if Nat.eqb n 1 then Ok [1] else let* row := mapM (one_act ex c w ph) (seq 0 n) in Ok (FaModel.normalize row)) = Ok row ->
  py_predict ex kinds i ps ph = Ok (sumn n (fun j => (ph * nth j v 0 + nth j o 0) * nth j row 0)).
Proof.
  intros Ek Hn Ec Lc Ew Lw Ev Lv Eo Lo Er. unfold py_predict. rewrite Ek. unfold lwr_predict, get_lines, param_arr. rewrite Ev, Eo. cbn [bind ashape adata].
  rewrite chunks_one by trivial. unfold nrows at 1. cbn [mcols mrows]. rewrite colm_length, Lv, Lo.
  replace (Nat.ltb n n) with false by (symmetry; apply Nat.ltb_ge; lia). cbn [Nat.eqb negb andb bind].
  rewrite (py_acts ex true _ n c w) by trivial. cbn [andb].
  assert (E : (if Nat.eqb n 1 then Ok (Mat 1 [[1]]) else let* r := mapM (one_act ex c w ph) (seq 0 n) in Ok (Mat n [FaModel.normalize r])) = Ok (Mat n [row])).
  { destruct (Nat.eqb_spec n 1) as [->|]; [now injection Er as <-|]. destruct (mapM (one_act ex c w ph) (seq 0 n)); cbn [bind] in *; [now injection Er as <-|discriminate]. }
  rewrite E. cbn [bind]. unfold mtimes. cbn [mcols mtab]. rewrite Nat.eqb_refl. cbn [bind].
  unfold mtab at 1. unfold nrows, mtab. cbn [mrows map length seq one]. f_equal.
  rewrite rsum_nth, map_length, seq_length. apply sumn_ext. intros j Hj.
  rewrite (nth_map_lt _ _ _ 0%nat) by (rewrite seq_length; lia). rewrite seq_nth by lia. unfold mget. cbn [mrows nth].
  rewrite (nth_map_lt _ _ _ 0%nat) by (rewrite seq_length; lia). rewrite seq_nth by lia. cbn [Nat.add]. rewrite nth_colm.
  rewrite (nth_error_nth' v 0) by lia. cbn [map2 rsum]. ring.
Qed.

(** a prediction in between *)
Lemma predict_blend kinds i t fx fy fz ph vx vy : fa_portable (kinds i) fx -> fa_portable (kinds i) fy -> blend t (f_model fx) (f_model fy) (f_model fz) ->
  (forall name, ~ In name movement_names -> lookup (f_model fx) name = lookup (f_model fy) name) ->
  py_predict ex kinds i (f_model fx) ph = Ok vx -> py_predict ex kinds i (f_model fy) ph = Ok vy ->
  py_predict ex kinds i (f_model fz) ph = Ok (t * vx + (1 - t) * vy).
Proof.
  intros (_ & n & Hn & Hx) (_ & n' & _ & Hy) B Same Ex Ey.
  assert (Uc : lookup (f_model fx) "centers" = lookup (f_model fy) "centers") by (apply Same; cbn; intuition discriminate).
  assert (Uw : lookup (f_model fx) "widths" = lookup (f_model fy) "widths") by (apply Same; cbn; intuition discriminate).
  assert (Z : forall name l, lookup (f_model fx) name = Some (PArr (Arr [n; 1%nat] l)) -> lookup (f_model fx) name = lookup (f_model fy) name ->
     lookup (f_model fz) name = Some (PArr (Arr [n; 1%nat] l))).
  { intros name l E1 E2. destruct (mixed_shape t _ _ _ _ _ (B name) E1) as (y & Ey' & Ez & _).
    rewrite <- E2, E1 in Ey'. injection Ey' as <-. now rewrite between_self in Ez. }
  destruct (kinds i) eqn:Ek; [| |contradiction].
  - inversion Hx as [|? ? (c & Ec & Lc) H1]; subst. inversion H1 as [|? ? (w & Ew & Lw) H2]; subst. inversion H2 as [|? ? (v & Ev & Lv) _]; subst.
    destruct (mixed_shape t _ _ _ _ _ (B "weights") Ev) as (u & Eu & Ez & Lu).
    pose proof (Z _ _ Ec Uc) as Zc. pose proof (Z _ _ Ew Uw) as Zw. rewrite Ec in Uc. rewrite Ew in Uw. symmetry in Uc, Uw. set (n := length c) in *.
    destruct (mapM (one_act ex c w ph) (seq 0 n)) as [row|e] eqn:Er.
    2:{ exfalso. unfold py_predict in Ex. rewrite Ek in Ex. unfold rbfn_predict in Ex. rewrite (py_acts ex false _ n c w) in Ex by trivial. cbn [andb] in Ex. rewrite Er in Ex. discriminate. }
    rewrite (rbfn_value kinds i _ n c w v ph row) in Ex by trivial. rewrite (rbfn_value kinds i _ n c w u ph row) in Ey by trivial.
    rewrite (rbfn_value kinds i _ n c w (between t v u) ph row) by trivial. injection Ex as <-. injection Ey as <-. f_equal.
    rewrite <- !sumn_scal, <- sumn_plus. apply sumn_ext. intros j Hj. rewrite (between_nth t v u n) by (trivial; congruence). ring.
  - inversion Hx as [|? ? (c & Ec & Lc) H1]; subst. inversion H1 as [|? ? (w & Ew & Lw) H2]; subst. inversion H2 as [|? ? (v & Ev & Lv) H3]; subst.
    inversion H3 as [|? ? (o & Eo & Lo) _]; subst.
    destruct (mixed_shape t _ _ _ _ _ (B "slopes") Ev) as (v' & Ev' & Ez & Lv'). destruct (mixed_shape t _ _ _ _ _ (B "offsets") Eo) as (o' & Eo' & Ez' & Lo').
    pose proof (Z _ _ Ec Uc) as Zc. pose proof (Z _ _ Ew Uw) as Zw. rewrite Ec in Uc. rewrite Ew in Uw. symmetry in Uc, Uw. set (n := length c) in *.
    destruct (if Nat.eqb n 1 then Ok [1] else let* row := mapM (one_act ex c w ph) (seq 0 n) in Ok (FaModel.normalize row)) as [row|e] eqn:Er.
    2:{ exfalso. unfold py_predict in Ex. rewrite Ek in Ex. unfold lwr_predict in Ex. destruct (get_lines _ _); [|discriminate]. cbn [bind] in Ex.
        rewrite (py_acts ex true _ n c w) in Ex by trivial. cbn [andb] in Ex. destruct (Nat.eqb n 1); [discriminate|].
        destruct (mapM (one_act ex c w ph) (seq 0 n)); discriminate. }
    rewrite (lwr_value kinds i _ n c w v o ph row) in Ex by trivial. rewrite (lwr_value kinds i _ n c w v' o' ph row) in Ey by (trivial; congruence).
    rewrite (lwr_value kinds i _ n c w (between t v v') (between t o o') ph row) by (trivial; apply between_length; congruence).
    injection Ex as <-. injection Ey as <-. f_equal.
    rewrite <- !sumn_scal, <- sumn_plus. apply sumn_ext. intros j Hj. rewrite (between_nth t v v' n), (between_nth t o o' n) by (trivial; congruence). ring.
Qed.
End E.
