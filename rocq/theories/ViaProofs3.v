(** Proofs: costs of the via-point task are convex in the rollout. *)
From Coq Require Import String.
From Verif Require Import Base BaseLemmas SessionModel UpdatersModel ParamModel ParamSpec TrajModel TrajSpec DmpModel DmpSpec TaskModel TaskSpec TaskProofs TaskProofs2
  CppModel CppSpec OptSpec OptProofs2 ExploreSpec ViaSpec ViaProofs ViaProofs2 DmpProofs7.
Open Scope R_scope.

Section T.
Variable t : R.
Hypothesis Ht : 0 <= t <= 1.
Notation mix a b := (t * a + (1 - t) * b).

Lemma dist_as_norm n a b : TaskSpec.dist n a b = OptModel.norm (map (fun i => a i - b i) (seq 0 n)).
Proof.
  rewrite norm_sumn, map_length, seq_length. unfold TaskSpec.dist. f_equal. apply sumn_ext. intros i Hi.
  rewrite !(nth_map_lt _ _ _ 0%nat) by (rewrite seq_length; lia). rewrite seq_nth by lia. cbn [Nat.add]. ring.
Qed.
Lemma dist_mix n a b c p : (forall i, (i < n)%nat -> c i = mix (a i) (b i)) -> TaskSpec.dist n c p <= mix (TaskSpec.dist n a p) (TaskSpec.dist n b p).
Proof.
  intros H. rewrite !dist_as_norm. replace (map (fun i => c i - p i) (seq 0 n)) with (between t (map (fun i => a i - p i) (seq 0 n)) (map (fun i => b i - p i) (seq 0 n))).
  - apply (norm_between n); trivial; now rewrite map_length, seq_length.
  - apply (nth_ext _ _ 0 0).
    + rewrite (between_length _ _ _ n); now rewrite map_length, seq_length.
    + intros j Hj. rewrite (between_length _ _ _ n) in Hj by (now rewrite map_length, seq_length).
      rewrite (between_nth _ _ _ n) by (trivial; now rewrite map_length, seq_length).
      rewrite !(nth_map_lt _ _ _ 0%nat) by (rewrite seq_length; lia). rewrite seq_nth by lia. cbn [Nat.add]. rewrite (H j Hj). ring.
Qed.
Lemma counts_same d via vt ts Y Y' w w' : ts <> [] -> counts d via (Some vt) ts Y w -> counts d via (Some vt) ts Y' w' -> w = w' /\ (w < length ts)%nat.
Proof.
  intros Hne H H'. assert (P : (0 < length ts)%nat) by (destruct ts; [congruence|cbn; lia]). cbn [counts] in H, H'.
  destruct H as [(A & B & C)|(-> & A)], H' as [(A' & B' & C')|(-> & A')].
  - split; [|exact A]. destruct (lt_eq_lt_dec w w') as [[L|E]|L]; [|exact E|]; [specialize (C' w L)|specialize (C w' L)]; lra.
  - specialize (A' w A). lra.
  - specialize (A w' A'). lra.
  - split; [reflexivity|exact P].
Qed.
Lemma max_mix a b c r : c <= mix a b -> Rmax 0 (c - r) <= mix (Rmax 0 (a - r)) (Rmax 0 (b - r)).
Proof.
  intros H. pose proof (Rmax_l 0 (a - r)). pose proof (Rmax_r 0 (a - r)). pose proof (Rmax_l 0 (b - r)). pose proof (Rmax_r 0 (b - r)). 
  assert (P : forall a b, 0 <= a -> 0 <= b -> 0 <= mix a b) by (intros; assert (0 <= t * a0) by (apply Rmult_le_pos; lra); assert (0 <= (1 - t) * b0) by (apply Rmult_le_pos; lra); lra).
  apply Rmax_lub; [now apply P|]. pose proof (P (Rmax 0 (a - r) - (a - r)) (Rmax 0 (b - r) - (b - r)) ltac:(lra) ltac:(lra)). lra.
Qed.
Lemma scale_mix w a b c : 0 < w -> c <= mix a b -> w * c <= mix (w * a) (w * b).
Proof. intros Hw H. replace (mix (w * a) (w * b)) with (w * mix a b) by ring. apply Rmult_le_compat_l; lra. Qed.
Lemma sumn_le' n f g : (forall i, (i < n)%nat -> f i <= g i) -> sumn n f <= sumn n g.
Proof. induction n as [|n IH]; intros H; cbn [sumn]; [lra|]. pose proof (H n ltac:(lia)). pose proof (IH ltac:(intros; apply H; lia)). lra. Qed.
Lemma sumn_mix n f g h : (forall i, (i < n)%nat -> h i <= mix (f i) (g i)) -> sumn n h <= mix (sumn n f) (sumn n g).
Proof. intros H. rewrite <- !sumn_scal, <- sumn_plus. now apply sumn_le'. Qed.
Lemma rsum_mix (l : list nat) f g h : (forall i, In i l -> h i <= mix (f i) (g i)) -> rsum (map h l) <= mix (rsum (map f l)) (rsum (map g l)).
Proof. induction l as [|a l IH]; intros H; cbn [map rsum]; [lra|]. pose proof (H a ltac:(now left)). pose proof (IH ltac:(intros; apply H; now right)). lra. Qed.
Lemma sq_mix a b c : c = mix a b -> c ^ 2 <= mix (a ^ 2) (b ^ 2).
Proof. intros ->. assert (mix (a ^ 2) (b ^ 2) - (mix a b) ^ 2 = t * (1 - t) * (a - b) ^ 2) by ring. 
  assert (0 <= t * (1 - t) * (a - b) ^ 2) by (apply Rmult_le_pos; [apply Rmult_le_pos; lra|apply pow2_ge_0]). lra. Qed.

Lemma costs_mix k ts Yx Yy Yz Ax Ay Az da x y cx cy cz : ts <> [] -> (0 < da)%nat -> timed k -> goal_ready k ts -> length x = length y ->
  (forall i j, (i < length ts)%nat -> (j < length (k_via k))%nat -> Yz i j = mix (Yx i j) (Yy i j)) ->
  (forall i j, (i < length ts)%nat -> (j < da)%nat -> Az i j = mix (Ax i j) (Ay i j)) ->
  costs_are k ts Yx Ax da x cx -> costs_are k ts Yy Ay da y cy -> costs_are k ts Yz Az da (between t x y) cz ->
  forall j, (j < 5)%nat -> nth j cz 0 <= mix (nth j cx 0) (nth j cy 0).
Proof.
  intros Hne Hda Htm Hgr L HY HA (_ & X0 & X1 & X1' & X2 & X2' & X3 & X3' & X4 & X4') (_ & Y0 & Y1 & Y1' & Y2 & Y2' & Y3 & Y3' & Y4 & Y4')
    (_ & Z0 & Z1 & Z1' & Z2 & Z2' & Z3 & Z3' & Z4 & Z4').
  assert (C1 : nth 1 cz 0 <= mix (nth 1 cx 0) (nth 1 cy 0)).
  { destruct (Rlt_dec 0 (k_wv k)) as [P|P]; [|rewrite X1', Y1', Z1' by lra; lra].
    destruct Htm as [Htm|Htm]; [|lra]. destruct (k_time k) as [vt|]; [|congruence].
    destruct (X1 P) as (wx & Cx & ->), (Y1 P) as (wy & Cy & ->), (Z1 P) as (w & Cz & ->).
    destruct (counts_same _ _ _ _ _ _ _ _ Hne Cz Cx) as [<- Lw]. destruct (counts_same _ _ _ _ _ _ _ _ Hne Cz Cy) as [<- _].
    pose proof (max_mix _ _ _ (Rmax 0 (k_radius k)) (dist_mix (length (k_via k)) (Yx w) (Yy w) (Yz w) (point (k_via k)) ltac:(intros; apply HY; trivial))) as M. now apply scale_mix. }
  assert (C2 : nth 2 cz 0 <= mix (nth 2 cx 0) (nth 2 cy 0)).
  { destruct (Rlt_dec 0 (k_wa k)) as [P|P]; [|rewrite X2', Y2', Z2' by lra; lra]. rewrite (X2 P), (Y2 P), (Z2 P).
    assert (M : sumn (length ts) (fun i => sumn da (fun j => Az i j ^ 2)) <= mix (sumn (length ts) (fun i => sumn da (fun j => Ax i j ^ 2))) (sumn (length ts) (fun i => sumn da (fun j => Ay i j ^ 2)))).
    { apply sumn_mix. intros i Hi. apply sumn_mix. intros j Hj. apply sq_mix. now apply HA. }
    set (a := sumn _ _) in *. set (b := sumn (length ts) (fun i => sumn da (fun j => Ax i j ^ 2))) in *. set (c := sumn (length ts) (fun i => sumn da (fun j => Ay i j ^ 2))) in *.
    assert (D1 : 0 < / INR da) by (apply Rinv_0_lt_compat; now apply lt_0_INR).
    assert (D2 : 0 < / INR (divisor k ts)).
    { apply Rinv_0_lt_compat, lt_0_INR. assert (P0 : (0 < length ts)%nat) by (destruct ts; [congruence|cbn; lia]). unfold divisor. destruct (k_goal k) as [g|] eqn:Eg; [|exact P0].
      destruct (k_goal_time k) as [gt|] eqn:Et; [|exact P0]. destruct (Rlt_dec 0 (k_wg k)) as [Pg|]; [|exact P0].
      destruct (Hgr g Pg Eg) as (_ & gt' & Et' & Hl). rewrite Et in Et'. injection Et' as <-. destruct (late gt ts); [congruence|cbn; lia]. }
    unfold Rdiv. assert (E : forall u, k_wa k * (u * / INR da) * / INR (divisor k ts) = (k_wa k * / INR da * / INR (divisor k ts)) * u) by (intros; ring). rewrite !E.
    assert (0 < k_wa k * / INR da * / INR (divisor k ts)) by (repeat apply Rmult_lt_0_compat; trivial). now apply scale_mix. }
  assert (C3 : nth 3 cz 0 <= mix (nth 3 cx 0) (nth 3 cy 0)).
  { assert (D : (exists g, k_goal k = Some g /\ 0 < k_wg k) \/ ~ uses_goal k).
    { unfold uses_goal. destruct (k_goal k) as [g|]; [|right; tauto]. destruct (Rlt_dec 0 (k_wg k)); [left; eauto|right; tauto]. }
    destruct D as [(g & Eg & Pg)|D]; [|rewrite X3', Y3', Z3' by exact D; lra].
    destruct (Hgr g Pg Eg) as (Lg & gt & Et & Hl). rewrite (X3 g gt Pg Eg Et), (Y3 g gt Pg Eg Et), (Z3 g gt Pg Eg Et).
    assert (M : rsum (map (fun i => TaskSpec.dist (length (k_via k)) (Yz i) (point g)) (late gt ts)) <= mix (rsum (map (fun i => TaskSpec.dist (length (k_via k)) (Yx i) (point g)) (late gt ts))) (rsum (map (fun i => TaskSpec.dist (length (k_via k)) (Yy i) (point g)) (late gt ts)))).
    { apply rsum_mix. intros i Hi. apply dist_mix. intros j Hj. apply HY; [|exact Hj]. unfold late in Hi. apply filter_In in Hi. destruct Hi as [Hi _]. apply in_seq in Hi. lia. }
    set (a := rsum _) in *. set (b := rsum (map (fun i => TaskSpec.dist (length (k_via k)) (Yx i) (point g)) (late gt ts))) in *. set (c := rsum (map (fun i => TaskSpec.dist (length (k_via k)) (Yy i) (point g)) (late gt ts))) in *.
    assert (D2 : 0 < / INR (length (late gt ts))) by (apply Rinv_0_lt_compat, lt_0_INR; destruct (late gt ts); [congruence|cbn; lia]).
    unfold Rdiv. assert (E : forall u, k_wg k * (u * / INR (length (late gt ts))) = (k_wg k * / INR (length (late gt ts))) * u) by (intros; ring). rewrite !E.
    assert (0 < k_wg k * / INR (length (late gt ts))) by (apply Rmult_lt_0_compat; trivial). now apply scale_mix. }
  assert (C4 : nth 4 cz 0 <= mix (nth 4 cx 0) (nth 4 cy 0)).
  { destruct (Rlt_dec 0 (k_wr k)) as [P|P]; [|rewrite X4', Y4', Z4' by lra; lra]. rewrite (X4 P), (Y4 P), (Z4 P).
    rewrite (between_length t x y (length x)) by auto. rewrite <- L.
    assert (M := dist_mix (length x) (point x) (point y) (point (between t x y)) (fun _ => 0) ltac:(intros i Hi; unfold point; apply (between_nth t x y (length x)); auto)). now apply scale_mix. }
  intros j Hj. destruct j as [|[|[|[|[|j]]]]]; [|assumption..|lia]. rewrite X0, Y0, Z0. lra.
Qed.
End T.

Section E.
Variable ex : R -> R.
Variable kinds : nat -> fa_kind.
Notation pf := (py_predict ex kinds).
Lemma sample_ok (frame : bool) s k x ts : wf pf (o_dmp s) -> selectable_dmp (pdmp_of (o_dmp s)) -> linear_params kinds (o_dmp s) ->
  dmp_size (pdmp_of (o_dmp s)) = Ok (length x) -> (1 <= o_n s)%Z -> m_dim (o_dmp s) = length (k_via k) -> (0 < m_dim (o_dmp s))%nat ->
  linspace0 (o_time s) (o_n s) = Ok ts -> goal_ready k ts -> exists cs, snd (cost_of_sample pf s frame k x) = Ok cs /\ length cs = 5%nat.
Proof.
  intros W Hs Hl Hx Hn Hd Hp Ets Hg. destruct (set_made (o_dmp s) x Hs (wf_goal_fits _ _ W) Hx) as (fs & rest & E & Em & _).
  destruct (sample_costs pf frame s k x _ (made_wf ex kinds _ x fs rest W Hs Hl Hx E) Em Hn Hd Hp) as (ts' & r & Ets' & Er & H).
  rewrite Ets in Ets'. injection Ets' as <-. destruct (H Hg) as (cs & Ecs & C). exists cs. split; [exact Ecs|]. now destruct C.
Qed.
Theorem cost_convex (frame : bool) s k ts : wf pf (o_dmp s) -> selectable_dmp (pdmp_of (o_dmp s)) -> linear_params kinds (o_dmp s) -> goal_apart (o_dmp s) ->
  (1 <= o_n s)%Z -> m_dim (o_dmp s) = length (k_via k) -> (0 < m_dim (o_dmp s))%nat ->
  linspace0 (o_time s) (o_n s) = Ok ts -> goal_ready k ts -> timed k ->
  forall x y t, dmp_size (pdmp_of (o_dmp s)) = Ok (length x) -> dmp_size (pdmp_of (o_dmp s)) = Ok (length y) -> 0 <= t <= 1 ->
  exists cx cy cz, snd (cost_of_sample pf s frame k x) = Ok cx /\ snd (cost_of_sample pf s frame k y) = Ok cy /\ snd (cost_of_sample pf s frame k (between t x y)) = Ok cz /\
    length cx = 5%nat /\ length cy = 5%nat /\ length cz = 5%nat /\ forall j, (j < 5)%nat -> nth j cz 0 <= t * nth j cx 0 + (1 - t) * nth j cy 0.
Proof.
  intros W Hs Hl Hga Hn Hd Hp Ets Hg Htm x y t Hx Hy Ht. set (m := o_dmp s) in *.
  destruct (three ex kinds m x y t W Hs Hl Hx Hy) as (fx & fy & fz & rx & ry & (Ex & Mx & Fx) & (Ey & My & Fy) & (Ez & Mz & Fz) & FM & Lr & Lg & Wx & Wy & Wz). cbv zeta in *.
  destruct (sample_costs pf frame s k x _ Wx Mx Hn Hd Hp) as (ts1 & qx & Et1 & Qx & Cx). destruct (sample_costs pf frame s k y _ Wy My Hn Hd Hp) as (ts2 & qy & Et2 & Qy & Cy).
  destruct (sample_costs pf frame s k (between t x y) _ Wz Mz Hn Hd Hp) as (ts3 & qz & Et3 & Qz & Cz).
  rewrite Ets in Et1, Et2, Et3. injection Et1 as <-. injection Et2 as <-. injection Et3 as <-.
  destruct (Cx Hg) as (cx & Ecx & Ax), (Cy Hg) as (cy & Ecy & Ay), (Cz Hg) as (cz & Ecz & Az). exists cx, cy, cz.
  split; [exact Ecx|]. split; [exact Ecy|]. split; [exact Ecz|]. split; [now destruct Ax|]. split; [now destruct Ay|]. split; [now destruct Az|].
  assert (Hne : ts <> []).
  { intros ->. unfold linspace0 in Ets. destruct (o_n s <? 0)%Z; [discriminate|]. assert (P : (0 < Z.to_nat (o_n s))%nat) by lia. destruct (Z.to_nat (o_n s)) as [|[|n]]; [lia|discriminate|discriminate]. }
  destruct (ana_total pf _ ts false Wx Hne) as (qx' & Qx' & Sx). rewrite Qx in Qx'. injection Qx' as <-.
  destruct (ana_total pf _ ts false Wy Hne) as (qy' & Qy' & Sy). rewrite Qy in Qy'. injection Qy' as <-.
  destruct (ana_total pf _ ts false Wz Hne) as (qz' & Qz' & Sz). rewrite Qz in Qz'. injection Qz' as <-.
  pose proof (rollout_mix ex kinds m x y t W Hs Hl Hga Hx Hy fx fy fz rx ry ts qx qy qz Ex Ey FM Fx Fy Fz Lg Sx Sy Sz) as R.
  refine (costs_mix t Ht k ts _ _ _ _ _ _ (m_dim m) x y cx cy cz Hne Hp Htm Hg _ _ _ Ax Ay Az).
  - congruence.
  - intros i j Hi Hj. rewrite <- Hd in Hj. now destruct (R i Hi j Hj).
  - intros i j Hi Hj. destruct (R i Hi j Hj) as (_ & _ & E). cbn [made m_dim m_tau] in *. fold m. rewrite E. unfold Rdiv. ring.
Qed.
End E.
