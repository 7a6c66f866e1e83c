(** Proofs about the costs of the via-point task. *)
From Coq Require Import String.
From Verif Require Import Base BaseLemmas SessionModel ParamModel TrajModel TrajSpec TrajProofs4 DmpModel TaskModel TaskSpec.
Open Scope R_scope.

Lemma norm_sub a b : length a = length b -> norm (map2 Rminus a b) = dist (length b) (point a) (point b).
Proof.
  intros H. unfold norm, dist. f_equal. rewrite rsum_nth, map_length, map2_length, H, Nat.min_id. apply sumn_ext. intros i Hi.
  rewrite (nth_map_lt (fun x => x * x) _ i 0 0) by (rewrite map2_length, H, Nat.min_id; exact Hi).
  rewrite (nth_map2 Rminus a b i 0 0 0) by lia. unfold point. ring.
Qed.
Lemma norm_self x : norm x = dist (length x) (point x) (fun _ => 0).
Proof.
  unfold norm, dist. f_equal. rewrite rsum_nth, map_length. apply sumn_ext. intros i Hi.
  rewrite (nth_map_lt (fun x => x * x) _ i 0 0) by exact Hi. unfold point. ring.
Qed.
Lemma norm_pos x : 0 <= norm x.
Proof. apply sqrt_pos. Qed.
Lemma dist_pos n a b : 0 <= dist n a b.
Proof. apply sqrt_pos. Qed.

(** argmin *)
Lemma argmin_from_spec : forall (l : list R) i b, exists j, argmin_from i b l = j /\
  ((j = fst b /\ forall m, (m < length l)%nat -> snd b <= nth m l 0) \/
   (exists m, j = (i + m)%nat /\ (m < length l)%nat /\ nth m l 0 < snd b /\ (forall p, (p < length l)%nat -> nth m l 0 <= nth p l 0) /\
              (forall p, (p < m)%nat -> nth m l 0 < nth p l 0))).
Proof.
  induction l as [|x l IH]; intros i b; cbn [argmin_from].
  { eexists. split; [reflexivity|]. left. split; [reflexivity|]. cbn. lia. }
  destruct (Rlt_dec x (snd b)) as [Hx|Hx].
  - destruct (IH (S i) (i, x)) as (j & E & [(F & G)|(m & F & Hm & L & G & K)]); exists j; (split; [exact E|]); right.
    + exists 0%nat. cbn [fst snd] in *. split; [lia|]. cbn [length nth]. split; [lia|]. split; [exact Hx|]. split; [|lia].
      intros [|p] Hp; [lra|]. cbn in Hp. apply G. lia.
    + exists (S m). cbn [fst snd] in *. split; [lia|]. cbn [length nth]. split; [lia|]. split; [lra|]. split.
      * intros [|p] Hp; [lra|]. apply G. lia.
      * intros [|p] Hp; [exact L|]. apply K. lia.
  - destruct (IH (S i) b) as (j & E & [(F & G)|(m & F & Hm & L & G & K)]); exists j; (split; [exact E|]); [left|right].
    + split; [exact F|]. intros [|p] Hp; cbn in *; [lra|]. apply G. lia.
    + exists (S m). split; [lia|]. cbn [length nth]. split; [lia|]. split; [lra|]. split.
      * intros [|p] Hp; [lra|]. apply G. lia.
      * intros [|p] Hp; [lra|]. apply K. lia.
Qed.
Lemma argmin_spec l : l <> [] -> exists i, argmin l = Ok i /\ (i < length l)%nat /\ (forall j, (j < length l)%nat -> nth i l 0 <= nth j l 0) /\
  (forall j, (j < i)%nat -> nth i l 0 < nth j l 0).
Proof.
  destruct l as [|x l]; [easy|]. intros _. unfold argmin. destruct (argmin_from_spec l 1 (0%nat, x)) as (j & E & [(F & G)|(m & F & Hm & L & G & K)]);
  cbn [fst snd] in *; exists j; (split; [now f_equal|]); rewrite F.
  - cbn [length nth]. split; [lia|]. split; [|lia]. intros [|p] Hp; [lra|]. apply G. lia.
  - replace (1 + m)%nat with (S m) by lia. cbn [length nth]. split; [lia|]. split.
    + intros [|p] Hp; [lra|]. apply G. lia.
    + intros [|p] Hp; [lra|]. apply K. lia.
Qed.

Lemma vsub_ok a b : length a = length b -> vsub a b = Ok (map2 Rminus a b).
Proof. intros H. unfold vsub. now rewrite H, Nat.eqb_refl. Qed.

Section Rows.
Variables (d : nat) (ys : list (list R)).
Hypothesis rows : forall r, In r ys -> length r = d.
Definition ent (m : list (list R)) (k i : nat) : R := nth i (nth k m []) 0.
Lemma dists (b : list R) : length b = d ->
  mapM (fun y => vsub y b) ys = Ok (map (fun y => map2 Rminus y b) ys).
Proof.
  clear - rows. intros H. apply mapM_pure. intros y Hy. apply vsub_ok. rewrite (rows y Hy). now symmetry.
Qed.
Lemma norm_at (b : list R) k : length b = d -> (k < length ys)%nat ->
  nth k (map norm (map (fun y => map2 Rminus y b) ys)) 0 = dist d (ent ys k) (point b).
Proof.
  intros H Hk. rewrite map_map, (nth_map_lt (fun y => norm (map2 Rminus y b)) ys k [] 0) by exact Hk.
  rewrite norm_sub by (rewrite (rows (nth k ys [])); [now symmetry|now apply nth_In]). rewrite H. reflexivity.
Qed.

Lemma waypoint_ok k ts : length (k_via k) = d -> length ys = length ts -> ts <> [] ->
  exists t w, counts d (point (k_via k)) (k_time k) ts (ent ys) w /\ (w < length ys)%nat /\ get_waypoint k ts ys = Ok (t, nth w ys []).
Proof.
  intros Hv Hl Hne. assert (Hpos : (0 < length ts)%nat) by (destruct ts; [easy|cbn; lia]).
  unfold get_waypoint, counts. destruct (k_time k) as [vt|].
  - destruct ts as [|t0 ts0] eqn:Ets; [easy|]. rewrite <- Ets in *. clear Ets t0 ts0. unfold argmax_ge.
    pose proof (find_ge_spec ts vt) as F. destruct (find_ge ts vt) as [w|].
    + destruct F as (Hw & Hv1 & Hv2). exists vt, w. rewrite (nth_res_ok ys w []) by lia. split; [left; auto|]. split; [lia|reflexivity].
    + exists vt, 0%nat. rewrite (nth_res_ok ys 0 []) by lia. split; [right; auto|]. split; [lia|reflexivity].
  - rewrite (dists (k_via k) Hv). cbn [bind]. set (ns := map norm (map (fun y => map2 Rminus y (k_via k)) ys)).
    assert (Ln : length ns = length ys) by (unfold ns; now rewrite !map_length).
    destruct (argmin_spec ns) as (w & E & Hw & M1 & M2). { intros E. rewrite E in Ln. cbn in Ln. lia. }
    rewrite E. cbn [bind]. rewrite (nth_res_ok ys w []) by lia. cbn [bind]. rewrite (nth_res_ok ts w 0) by lia. cbn [bind].
    exists (nth w ts 0), w. split; [|split; [lia|reflexivity]]. split; [lia|].
    assert (N : forall i, (i < length ys)%nat -> nth i ns 0 = dist d (ent ys i) (point (k_via k))) by (intros i Hi; unfold ns; now apply norm_at).
    split.
    + intros i Hi. rewrite <- !N by lia. apply M1. lia.
    + intros i Hi. rewrite <- !N by lia. now apply M2.
Qed.
Lemma viapoint_dist_ok k ts : length (k_via k) = d -> length ys = length ts -> ts <> [] ->
  exists v, viapoint_dist k ts ys = Ok v /\ 0 <= v /\ (k_wv k <= 0 -> v = 0) /\
  (0 < k_wv k -> exists w, counts d (point (k_via k)) (k_time k) ts (ent ys) w /\
     v = Rmax 0 (dist d (ent ys w) (point (k_via k)) - Rmax 0 (k_radius k))).
Proof.
  intros Hv Hl Hne. unfold viapoint_dist. destruct (Rlt_dec 0 (k_wv k)) as [W|W].
  2: { exists 0. split; [reflexivity|]. split; [lra|]. split; [reflexivity|]. intros; lra. }
  destruct (waypoint_ok k ts Hv Hl Hne) as (t & w & C & Hw & E). rewrite E. cbn [bind snd].
  assert (L : length (nth w ys []) = length (k_via k)) by (rewrite Hv; apply rows; now apply nth_In).
  rewrite (vsub_ok _ _ L). cbn [bind]. rewrite (norm_sub _ _ L), Hv.
  change (point (nth w ys [])) with (ent ys w). set (D := dist d (ent ys w) (point (k_via k))).
  assert (0 <= D) by apply dist_pos.
  destruct (Rlt_dec 0 (k_radius k)) as [Rr|Rr].
  - destruct (Rlt_dec (D - k_radius k) 0) as [G|G].
    + exists 0. split; [reflexivity|]. split; [lra|]. split; [intros; lra|]. intros _. exists w. split; [exact C|]. fold D.
      rewrite (Rmax_right 0 (k_radius k)) by lra. now rewrite Rmax_left by lra.
    + eexists. split; [reflexivity|]. split; [lra|]. split; [intros; lra|]. intros _. exists w. split; [exact C|]. fold D.
      rewrite (Rmax_right 0 (k_radius k)) by lra. now rewrite Rmax_right by lra.
  - eexists. split; [reflexivity|]. split; [lra|]. split; [intros; lra|]. intros _. exists w. split; [exact C|]. fold D.
    rewrite (Rmax_left 0 (k_radius k)) by lra. rewrite Rmax_right by lra. lra.
Qed.
End Rows.

(** the accelerations *)
Lemma sum_squares n m A : samples n m A ->
  rsum (map (fun r => rsum (map (fun x => x * x) r)) (mrows A)) = sumn n (fun i => sumn m (fun j => ent (mrows A) i j ^ 2)).
Proof.
  intros (C & N & S). rewrite rsum_nth, map_length, N. apply sumn_ext. intros i Hi.
  rewrite (nth_map_lt (fun r => rsum (map (fun x => x * x) r)) _ i [] 0) by lia.
  assert (L : length (nth i (mrows A) []) = m) by (apply S, nth_In; lia).
  rewrite rsum_nth, map_length, L. apply sumn_ext. intros j Hj.
  rewrite (nth_map_lt (fun x => x * x) _ j 0 0) by lia. unfold ent. ring.
Qed.

(** rows at or after a time *)
Lemma after_late t : forall ts ys, length ys = length ts -> after ts t ys = map (fun i => nth i ys []) (late t ts).
Proof.
  unfold late. induction ts as [|x ts IH]; intros ys H; destruct ys as [|y ys]; try discriminate; [reflexivity|].
  cbn [length seq filter after]. change (nth 0 (x :: ts) 0) with x. injection H as H.
  assert (E : map (fun i => nth i (y :: ys) []) (filter (fun i => if Rle_dec t (nth i (x :: ts) 0) then true else false) (seq 1 (length ts))) =
              map (fun i => nth i ys []) (filter (fun i => if Rle_dec t (nth i ts 0) then true else false) (seq 0 (length ts)))).
  { rewrite <- seq_shift. generalize (seq 0 (length ts)). intros l. induction l as [|a l IHl]; [reflexivity|]. cbn [map filter]. change (nth (S a) (x :: ts) 0) with (nth a ts 0).
    destruct (Rle_dec t (nth a ts 0)); cbn [map]; rewrite IHl; reflexivity. }
  destruct (Rle_dec t x); cbn [map]; rewrite E, IH by exact H; reflexivity.
Qed.
Lemma late_lt t ts i : In i (late t ts) -> (i < length ts)%nat.
Proof. unfold late. intros H. apply filter_In in H as (H & _). apply in_seq in H. lia. Qed.
Lemma late_iff t ts i : In i (late t ts) <-> (i < length ts)%nat /\ t <= nth i ts 0.
Proof.
  unfold late. rewrite filter_In, in_seq. destruct (Rle_dec t (nth i ts 0)); intuition (try lia; try discriminate; try lra).
Qed.

Lemma delay_ok d k ts ys : (forall r, In r ys -> length r = d) -> length (k_via k) = d -> length ys = length ts -> ts <> [] -> goal_ready k ts ->
  exists v, delay_cost k ts ys = Ok (Some v, divisor k ts) /\ 0 <= v /\ (0 < divisor k ts)%nat /\ (~ uses_goal k -> v = 0) /\
  (forall g gt, 0 < k_wg k -> k_goal k = Some g -> k_goal_time k = Some gt ->
     v = rsum (map (fun i => dist d (ent ys i) (point g)) (late gt ts)) / INR (length (late gt ts))).
Proof.
  intros rows Hv Hl Hne G. assert (Hpos : (0 < length ts)%nat) by (destruct ts; [easy|cbn; lia]).
  unfold delay_cost, divisor, uses_goal. destruct (k_goal k) as [g|] eqn:Eg.
  2: { exists 0. split; [reflexivity|]. split; [lra|]. split; [exact Hpos|]. split; [reflexivity|]. intros g gt H H'. discriminate. }
  destruct (Rlt_dec 0 (k_wg k)) as [W|W].
  2: { exists 0. split. { now destruct (k_goal_time k). } split; [lra|]. split. { now destruct (k_goal_time k). } split; [reflexivity|]. intros; lra. }
  destruct (G g W Eg) as (Lg & gt & Egt & Hlate). rewrite Egt.
  rewrite (after_late gt ts ys Hl). rewrite (dists d (map (fun i => nth i ys []) (late gt ts))).
  2: { intros r H. apply in_map_iff in H as (i & <- & H). apply rows, nth_In. rewrite Hl. now apply late_lt with gt. }
  2: { lia. }
  cbn [bind]. rewrite !map_map. set (L := late gt ts) in *.
  assert (E : map (fun x => norm (map2 Rminus (nth x ys []) g)) L = map (fun i => dist d (ent ys i) (point g)) L).
  { apply map_ext_in. intros i Hi. assert (length (nth i ys []) = length g). { rewrite Lg, Hv. apply rows, nth_In. rewrite Hl. now apply late_lt with gt. }
    rewrite norm_sub by assumption. rewrite Lg, Hv. reflexivity. }
  exists (rsum (map (fun i => dist d (ent ys i) (point g)) L) / INR (length L)).
  assert (0 < length L)%nat by (destruct L; [easy|cbn; lia]).
  split.
  { rewrite !map_length. destruct (map (fun x => map2 Rminus (nth x ys []) g) L) eqn:EL.
    { apply (f_equal (@length _)) in EL. rewrite map_length in EL. cbn in EL. lia. }
    rewrite E. reflexivity. }
  split. { apply Rmult_le_pos; [|left; apply Rinv_0_lt_compat, lt_0_INR; assumption]. apply rsum_nonneg. intros x Hx. apply in_map_iff in Hx as (i & <- & _). apply dist_pos. }
  split; [assumption|]. split.
  - intros H'. elim H'. split; [assumption|discriminate].
  - intros g' gt' _ E1 E2. injection E1 as <-. injection E2 as <-. reflexivity.
Qed.

Theorem evaluate_local_ok k ts ys A da x : (forall r, In r ys -> length r = length (k_via k)) -> length ys = length ts -> ts <> [] ->
  samples (length ts) da A -> (0 < da)%nat -> goal_ready k ts ->
  exists cs, evaluate_local k ts ys A x = Ok cs /\ costs_are k ts (ent ys) (ent (mrows A)) da x cs.
Proof.
  intros rows Hl Hne HA Hda G. unfold evaluate_local.
  destruct (viapoint_dist_ok (length (k_via k)) ys rows k ts eq_refl Hl Hne) as (v & E1 & P1 & Z1 & F1). rewrite E1. cbn [bind].
  assert (E2 : exists s, sum_ydd k A = Ok s /\ (k_wa k <= 0 -> s = 0) /\
    (0 < k_wa k -> s = sumn (length ts) (fun i => sumn da (fun j => ent (mrows A) i j ^ 2)) / INR da)).
  { unfold sum_ydd. destruct (Rlt_dec 0 (k_wa k)).
    - pose proof HA as (C & _). rewrite C. destruct (Nat.eqb_spec da 0); [lia|]. eexists. split; [reflexivity|]. split; [intros; lra|]. intros _.
      now rewrite (sum_squares (length ts) da A HA).
    - exists 0. split; [reflexivity|]. split; [reflexivity|]. intros; lra. }
  destruct E2 as (s & E2 & Z2 & F2). rewrite E2. cbn [bind].
  destruct (delay_ok (length (k_via k)) k ts ys rows eq_refl Hl Hne G) as (dl & E3 & P3 & Hn & Z3 & F3). rewrite E3. cbn [bind fst snd].
  destruct (Nat.eqb_spec (divisor k ts) 0); [lia|]. eexists. split; [reflexivity|].
  unfold costs_are. cbn [length nth rsum]. split; [reflexivity|]. split; [ring|].
  split. { intros W. destruct (F1 W) as (w & C & ->). exists w. split; [exact C|reflexivity]. }
  split. { intros W. rewrite (Z1 W). ring. }
  split. { intros W. now rewrite (F2 W). }
  split. { intros W. rewrite (Z2 W). unfold Rdiv. ring. }
  split. { intros g gt W Eg Egt. now rewrite (F3 g gt W Eg Egt). }
  split. { intros W. rewrite (Z3 W). ring. }
  split. { intros W. unfold l2_norm. destruct (Rlt_dec 0 (k_wr k)); [|lra]. now rewrite norm_self. }
  intros W. unfold l2_norm. destruct (Rlt_dec 0 (k_wr k)); [lra|ring].
Qed.

(** whatever the arguments: five costs, none negative, the first the sum of the others *)
Theorem evaluate_local_costs k ts ys A x cs : evaluate_local k ts ys A x = Ok cs ->
  length cs = 5%nat /\ nth 0 cs 0 = nth 1 cs 0 + nth 2 cs 0 + nth 3 cs 0 + nth 4 cs 0 /\ forall c, In c cs -> 0 <= c.
Proof.
  unfold evaluate_local. intros E.
  destruct (viapoint_dist k ts ys) as [v|] eqn:E1; [|discriminate]. cbn [bind] in E.
  destruct (sum_ydd k A) as [s|] eqn:E2; [|discriminate]. cbn [bind] in E.
  destruct (delay_cost k ts ys) as [[o n]|] eqn:E3; [|discriminate]. cbn [bind fst snd] in E.
  destruct (Nat.eqb_spec n 0); [destruct (Rlt_dec 0 (k_wa k)); discriminate|]. destruct o as [dl|]; [|discriminate].
  assert (Ecs : cs = rsum [k_wv k * v; k_wa k * s / INR n; k_wg k * dl; k_wr k * l2_norm k x] :: [k_wv k * v; k_wa k * s / INR n; k_wg k * dl; k_wr k * l2_norm k x]) by congruence.
  assert (A1 : 0 <= k_wv k * v).
  { unfold viapoint_dist in E1. destruct (Rlt_dec 0 (k_wv k)); [|injection E1 as <-; lra].
    apply Rmult_le_pos; [lra|]. destruct (get_waypoint k ts ys); [|discriminate]. cbn [bind] in E1. destruct (vsub _ _) as [u|]; [|discriminate]. cbn [bind] in E1.
    pose proof (norm_pos u). destruct (Rlt_dec 0 (k_radius k)); [destruct (Rlt_dec _ 0)|]; injection E1 as <-; lra. }
  assert (Hn : 0 < INR n) by (apply lt_0_INR; lia).
  assert (A2 : 0 <= k_wa k * s / INR n).
  { unfold sum_ydd in E2. destruct (Rlt_dec 0 (k_wa k)); [|injection E2 as <-; unfold Rdiv; lra].
    destruct (Nat.eqb_spec (mcols A) 0); [discriminate|]. injection E2 as <-. assert (0 < INR (mcols A)) by (apply lt_0_INR; lia).
    apply Rmult_le_pos; [|left; now apply Rinv_0_lt_compat]. apply Rmult_le_pos; [lra|]. apply Rmult_le_pos; [|left; now apply Rinv_0_lt_compat].
    apply rsum_nonneg. intros y Hy. apply in_map_iff in Hy as (rw & <- & _). apply rsum_nonneg. intros y Hy. apply in_map_iff in Hy as (z & <- & _).
    pose proof (Rle_0_sqr z). unfold Rsqr in *. lra. }
  assert (A3 : 0 <= k_wg k * dl).
  { unfold delay_cost in E3. destruct (k_goal k); [|injection E3 as <- _; lra]. destruct (Rlt_dec 0 (k_wg k)); [|injection E3 as <- _; lra].
    destruct (k_goal_time k); [|discriminate]. destruct (mapM _ _) as [ds|]; [|discriminate]. cbn [bind] in E3. apply Rmult_le_pos; [lra|].
    destruct ds as [|d0 ds]; [discriminate|]. assert (Hdl : dl = rsum (map norm (d0 :: ds)) / INR (length (d0 :: ds))) by congruence. rewrite Hdl.
    apply Rmult_le_pos; [|left; apply Rinv_0_lt_compat, lt_0_INR; cbn; lia]. apply rsum_nonneg. intros y Hy. apply in_map_iff in Hy as (z & <- & _). apply norm_pos. }
  assert (A4 : 0 <= k_wr k * l2_norm k x).
  { unfold l2_norm. destruct (Rlt_dec 0 (k_wr k)); [|lra]. apply Rmult_le_pos; [lra|apply norm_pos]. }
  rewrite Ecs. cbn [length nth rsum]. split; [reflexivity|]. split; [ring|].
  intros c [<-|[<-|[<-|[<-|[<-|[]]]]]]; lra.
Qed.

(** the specification determines the costs *)
Lemma counts_unique d via time ts Y a b : counts d via time ts Y a -> counts d via time ts Y b -> a = b.
Proof.
  unfold counts. destruct time as [vt|].
  - intros [(H1 & H2 & H3)|(-> & H1)] [(K1 & K2 & K3)|(-> & K1)].
    + destruct (Nat.lt_trichotomy a b) as [L|[L|L]]; [specialize (K3 a L); lra|exact L|specialize (H3 b L); lra].
    + specialize (K1 a H1). lra.
    + specialize (H1 b K1). lra.
    + reflexivity.
  - intros (H1 & H2 & H3) (K1 & K2 & K3). destruct (Nat.lt_trichotomy a b) as [L|[L|L]]; [|exact L|].
    + specialize (K3 a L). specialize (H2 b K1). lra.
    + specialize (H3 b L). specialize (K2 a H1). lra.
Qed.
Theorem costs_unique k ts Y A da x cs cs' : goal_ready k ts -> costs_are k ts Y A da x cs -> costs_are k ts Y A da x cs' -> cs = cs'.
Proof.
  intros G (L & S & V1 & V0 & A1 & A0 & G1 & G0 & R1 & R0) (L' & S' & V1' & V0' & A1' & A0' & G1' & G0' & R1' & R0').
  assert (E1 : nth 1 cs 0 = nth 1 cs' 0).
  { destruct (Rlt_dec 0 (k_wv k)) as [W|W]. - destruct (V1 W) as (w & C & ->), (V1' W) as (w' & C' & ->). now rewrite (counts_unique _ _ _ _ _ _ _ C C').
    - rewrite V0, V0' by lra. reflexivity. }
  assert (E2 : nth 2 cs 0 = nth 2 cs' 0). { destruct (Rlt_dec 0 (k_wa k)) as [W|W]; [now rewrite A1, A1' by exact W|now rewrite A0, A0' by lra]. }
  assert (E3 : nth 3 cs 0 = nth 3 cs' 0).
  { destruct (Rlt_dec 0 (k_wg k)) as [W|W]; [|rewrite G0, G0'; [reflexivity|intros (H & _); lra..]].
    destruct (k_goal k) as [g|] eqn:Eg; [|rewrite G0, G0'; [reflexivity|intros (_ & H); now elim H..]].
    destruct (G g W Eg) as (_ & gt & Egt & _). now rewrite (G1 g gt W eq_refl Egt), (G1' g gt W eq_refl Egt). }
  assert (E4 : nth 4 cs 0 = nth 4 cs' 0). { destruct (Rlt_dec 0 (k_wr k)) as [W|W]; [now rewrite R1, R1' by exact W|now rewrite R0, R0' by lra]. }
  assert (E0 : nth 0 cs 0 = nth 0 cs' 0) by (rewrite S, S', E1, E2, E3, E4; reflexivity).
  apply nth_ext with 0 0; [congruence|]. intros [|[|[|[|[|n]]]]] Hn; trivial. lia.
Qed.
