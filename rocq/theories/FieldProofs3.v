(** Proofs about rollouts in a force field: DMPs with schedules for the gains. *)
From Coq Require Import String.
From Verif Require Import Base BaseLemmas DynModel DynSpec DynProofs DynProofs5 ParamModel ParamSpec TrajModel DmpModel DmpSpec DmpSpec2 DmpProofs DmpProofs2 DmpProofs3 DmpProofs4 DmpProofs5 DmpProofs13 DmpProofs14 DmpProofs19 SchedModel SchedSpec SchedProofs SchedProofs2 FieldModel FieldSpec FieldProofs.
Open Scope R_scope.

Section S.
Variables (pf : nat -> list (string * pval) -> R -> res R) (sf : nat -> list (string * pval) -> R -> res R).

Lemma touched_parts m m' : touched m m' -> m_dim m' = m_dim m /\ m_tau m' = m_tau m /\ m_phase m' = m_phase m /\ m_gating m' = m_gating m /\
  m_damping m' = m_damping m /\ (forall g, m_goal m' = Some g -> (forall g0, m_goal m = Some g0 -> unrestricted g0) -> unrestricted g).
Proof.
  intros (a & p & g & -> & _ & Hg). repeat (split; [reflexivity|]). cbn. intros g1 E H. destruct (m_goal m) as [g0|]; [|congruence].
  specialize (H g0 eq_refl). destruct Hg as [->|(g' & -> & Eg)]; [now injection E as <-|]. injection E as <-.
  destruct g0; cbn [sub_set_attr] in Eg; try (injection Eg as <-; exact H). destruct (Nat.eqb _ _); [|discriminate]. injection Eg as <-. exact I.
Qed.
Definition rate m x := match rate_of pf m x with Ok v => v | Err _ => [] end.
Lemma rate_computes m : wf pf m -> free m -> computes (rate_of pf m) (dim_x m) (rate m).
Proof.
  intros W (U1 & U2 & U3 & U4) x Hx. destruct (diffeq_total pf m x W Hx U1 U2 U3 U4) as (m' & xd & E).
  pose proof (diffeq_length pf m x m' xd E) as L. unfold rate, rate_of. rewrite E. cbn [bind snd]. split; congruence.
Qed.
Lemma step_total m dt x : wf pf m -> free m -> length x = dim_x m -> exists x' xd, step_rk (rate_of pf m) (dim_x m) dt x = Ok (x', xd) /\ length x' = dim_x m /\ length xd = dim_x m.
Proof.
  intros W F Hx. pose proof (rate_computes m W F) as C. rewrite (step_rk_ok _ _ _ C) by trivial. do 2 eexists. split; [reflexivity|].
  pose proof (rk4_length _ _ _ C dt x Hx) as L. split; [exact L|]. now destruct (C _ L).
Qed.
Lemma rows_one m x xd : wf pf m -> length x = dim_x m -> length xd = dim_x m ->
  states_as_rows m [x] [xd] = Ok [(map (fun i => nth i x 0) (seq 0 (m_dim m)), map (fun i => nth i xd 0) (seq 0 (m_dim m)),
                                   map (fun i => nth (m_dim m + i) xd 0 / m_tau m) (seq 0 (m_dim m)))].
Proof.
  intros W Lx Lxd. unfold states_as_rows. cbn [combine mapM fst snd]. unfold ix_y, ix_z.
  rewrite !get_ix_row by (rewrite ?Lx, ?Lxd; unfold dim_x; lia). cbn [bind].
  unfold vdiv. destruct (Req_EM_T (m_tau m) 0) as [H|_]; [now destruct W|]. cbn [bind]. rewrite map_map. reflexivity.
Qed.
(** clipping one schedule gives one row *)
Lemma enforce_shape lo hi v s : enforce_bounds lo hi 1 (In1 [v]) = Ok s -> s = In1 [v] \/ exists r, s = In2 (Mat 1 [r]).
Proof.
  intros E. unfold enforce_bounds in E. assert (D : forall l h m', clip_columns l h 1 0 (Mat 1 (map (fun x => [x]) [v])) = Ok m' -> exists r, m' = Mat 1 [r]).
  { intros l h m'. cbn [clip_columns map mrows mcols Nat.ltb Nat.leb]. destruct (bound_at l 0) as [a|]; [|discriminate]. destruct (bound_at h 0) as [b|]; [|discriminate].
    cbn [bind]. destruct a, b; intros H; try discriminate; injection H as <-; eauto. }
  assert (E' : s = In1 [v] \/ exists m', clip_columns lo hi 1 0 (Mat 1 (map (fun x => [x]) [v])) = Ok m' /\ s = In2 m').
  { destruct lo, hi; try (left; now injection E as <-); right;
      match type of E with context [clip_columns ?l ?h 1 0 ?m] => destruct (clip_columns l h 1 0 m) as [m'|]; [|discriminate] end; cbn [bind] in E; injection E as <-; eauto. }
  destruct E' as [->|(m' & E1 & ->)]; [now left|]. right. destruct (D _ _ _ E1) as [r ->]. eauto.
Qed.
Lemma spread_ok d n s l : step_values s = l -> length l = n -> (exists v, s = In1 v) \/ (exists r c, s = In2 (Mat c [r])) -> n = 1%nat \/ n = d ->
  spread d s = Ok (map (fun i => nth (if Nat.eqb n 1 then 0 else i) l 0) (seq 0 d)).
Proof.
  intros El Ln Hs Hn.
  assert (E : spread d s = if Nat.eqb (length l) d then Ok l else match l with [v] => Ok (repeat v d) | _ => Err ValueError end).
  { destruct Hs as [[v ->]|(r & c & ->)]; cbn in El; [now subst v|]. rewrite app_nil_r in El. now subst r. }
  rewrite E. clear E El Hs. destruct (Nat.eqb_spec (length l) d) as [E|E].
  - f_equal. destruct (Nat.eqb_spec n 1) as [E1|_].
    + rewrite <- E, Ln, E1. destruct l as [|v [|]]; cbn in *; try lia. reflexivity.
    + rewrite <- E. clear. apply list_ext_nth; rewrite ?map_length, ?seq_length; trivial.
      intros i Hi. now rewrite nth_map_seq by trivial.
  - destruct Hn as [->|]; [|congruence]. destruct l as [|v [|]]; try discriminate. cbn [Nat.eqb nth]. f_equal.
    clear. generalize 0%nat. induction d; intros o; cbn; [reflexivity|]. f_equal. apply IHd.
Qed.
Notation single := usable_gains.
Notation sch := schedule_of.
Lemma single_either w lo hi : single w lo hi -> (lo = ANone /\ hi = ANone) \/ length (w_fas w) = 1%nat.
Proof. unfold usable_gains. tauto. Qed.
Lemma sched_shape w lo hi l s : bounded_by w lo hi -> single w lo hi -> length l = length (w_fas w) ->
  enforce_bounds (w_lo w) (w_hi w) (length (w_fas w)) (In1 l) = Ok s -> (exists v, s = In1 v) \/ (exists r c, s = In2 (Mat c [r])).
Proof.
  intros (_ & _ & El & Eh) [H|(-> & -> & _)] L E.
  - rewrite H in *. destruct l as [|v [|]]; try discriminate. destruct (enforce_shape _ _ _ _ E) as [->|[r ->]]; eauto.
  - rewrite El, Eh in E. cbn in E. injection E as <-. eauto.
Qed.
Lemma wish_ok w lo hi x xd s : wf pf (w_dmp w) -> single w lo hi -> length x = dim_x (w_dmp w) -> length xd = dim_x (w_dmp w) ->
  (exists v, s = In1 v) \/ (exists r c, s = In2 (Mat c [r])) ->
  forall V, step_values s = map V (seq 0 (length (w_fas w))) ->
  let m := w_dmp w in
  wish_of m x xd s = Ok (Wish (map (fun i => nth i x 0) (seq 0 (m_dim m))) (map (fun i => nth i xd 0) (seq 0 (m_dim m)))
                              (map (fun i => nth (m_dim m + i) xd 0 / m_tau m) (seq 0 (m_dim m))) (map (fun i => V (sch w i)) (seq 0 (m_dim m)))).
Proof.
  intros W Hn Lx Lxd Hs V HV m. subst m. unfold wish_of. rewrite rows_one by trivial. cbn [bind].
  rewrite (spread_ok (m_dim (w_dmp w)) (length (w_fas w)) s _ HV) by first [exact Hs|now rewrite map_length, seq_length|unfold usable_gains in Hn; tauto].
  cbn [bind]. apply f_equal, f_equal. apply map_ext_in. intros i Hi. apply in_seq in Hi. unfold schedule_of.
  apply nth_map_seq. destruct (Nat.eqb_spec (length (w_fas w)) 1); [lia|]. unfold usable_gains in Hn. destruct Hn as [|(_ & _ & ->)]; [congruence|]. lia.
Qed.
Definition wish_for (m : dmp) (g : nat -> R) (x xd : list R) : wish :=
  Wish (map (fun i => nth i x 0) (seq 0 (m_dim m))) (map (fun i => nth i xd 0) (seq 0 (m_dim m)))
       (map (fun i => nth (m_dim m + i) xd 0 / m_tau m) (seq 0 (m_dim m))) (map g (seq 0 (m_dim m))).
Lemma field_start_ok w lo hi m' x xd : wf pf (w_dmp w) -> sched_ready sf w -> bounded_by w lo hi -> single w lo hi ->
  m_start pf (w_dmp w) None = Ok (m', x, xd) -> length xd = dim_x (w_dmp w) ->
  field_start pf sf w = Ok ((upd_dmp w m', x), wish_for (w_dmp w) (gain_value sf w lo hi (nth (3 * m_dim (w_dmp w)) x 0)) x xd).
Proof.
  intros W Sr B N E Lxd. pose proof (start_length pf _ _ _ _ E) as Lx. destruct (start_sched_ok pf sf w lo hi m' x xd W Sr B (single_either _ _ _ N) E) as (s & Es & V).
  pose proof (start_touch pf _ _ _ _ E) as T. destruct (touched_parts _ _ T) as (Dm & Dt & _).
  destruct (touched_sound pf _ _ (wf_sound pf _ W) T) as (S' & _ & Q & _). pose proof (sound_wf pf m' S' (Q (wf_ready pf _ W))) as W'.
  assert (Sh : (exists v, s = In1 v) \/ (exists r c, s = In2 (Mat c [r]))).
  { unfold start_sched in Es. rewrite E in Es. cbn [bind] in Es. destruct (phase_of m' x) as [ph|]; [|discriminate]. cbn [bind] in Es.
    destruct (predict_sched sf w ph) as [l|] eqn:Ep; [|discriminate]. cbn [bind] in Es. rewrite predict_sched_ok in Ep by trivial. apply ok_inj in Ep.
    destruct (enforce_bounds _ _ _ _) as [s'|] eqn:Ee; [|discriminate]. cbn [bind] in Es. injection Es as ->.
    apply (sched_shape w lo hi l s B N); [|exact Ee]. rewrite <- Ep. now rewrite map_length, seq_length. }
  unfold field_start. rewrite Es. cbn [bind].
  assert (Dx : dim_x m' = dim_x (w_dmp w)) by (unfold dim_x; now rewrite Dm).
  rewrite (wish_ok (upd_dmp w m') lo hi x xd s) with (V := fun i => limited lo hi i (sched_val sf w (nth (3 * m_dim (w_dmp w)) x 0) i)); cbn [upd_dmp w_dmp w_fas]; rewrite ?Dx; trivial.
  - cbn [bind]. unfold wish_for. rewrite Dm, Dt. reflexivity.
  - unfold usable_gains in *. cbn [upd_dmp w_dmp w_fas]. now rewrite Dm.
Qed.
Lemma field_step_ok w lo hi dt x x' xd : wf pf (w_dmp w) -> sched_ready sf w -> bounded_by w lo hi -> single w lo hi ->
  step_rk (rate_of pf (w_dmp w)) (dim_x (w_dmp w)) dt x = Ok (x', xd) -> length xd = dim_x (w_dmp w) ->
  field_step pf sf dt (w, x) = Ok ((w, x'), wish_for (w_dmp w) (gain_value sf w lo hi (nth (3 * m_dim (w_dmp w)) x' 0)) x' xd).
Proof.
  intros W Sr B N E Lxd. pose proof (rk_length pf _ _ _ _ _ E) as Lx. destruct (step_sched_ok pf sf w lo hi dt x x' xd W Sr B (single_either _ _ _ N) E) as (s & Es & V).
  assert (Sh : (exists v, s = In1 v) \/ (exists r c, s = In2 (Mat c [r]))).
  { unfold step_sched in Es. rewrite E in Es. cbn [bind] in Es. destruct (phase_of (w_dmp w) x') as [ph|]; [|discriminate]. cbn [bind] in Es.
    destruct (predict_sched sf w ph) as [l|] eqn:Ep; [|discriminate]. cbn [bind] in Es. rewrite predict_sched_ok in Ep by trivial. apply ok_inj in Ep.
    destruct (enforce_bounds _ _ _ _) as [s'|] eqn:Ee; [|discriminate]. cbn [bind] in Es. injection Es as ->.
    apply (sched_shape w lo hi l s B N); [|exact Ee]. rewrite <- Ep. now rewrite map_length, seq_length. }
  unfold field_step. rewrite Es. cbn [bind].
  rewrite (wish_ok w lo hi x' xd s) with (V := fun i => limited lo hi i (sched_val sf w (nth (3 * m_dim (w_dmp w)) x' 0) i)); trivial.
Qed.

Lemma start_rate_length m m' x xd : m_start pf m None = Ok (m', x, xd) -> length x = dim_x m -> length xd = dim_x m.
Proof.
  unfold m_start. cbv zeta. cbn [bind]. intros E L. peel E. injection E as _ <- <-.
  match goal with H : m_diffeq pf _ _ = Ok ?p |- _ => destruct p as [m1 xd1]; apply diffeq_length in H end. cbn [snd]. congruence.
Qed.
(** the movement of the DMP alone *)
Lemma states_exist m dt x : wf pf m -> free m -> length x = dim_x m -> exists X XD, X 0%nat = x /\
  (forall k, length (X k) = dim_x m /\ length (XD (Datatypes.S k)) = dim_x m /\ step_rk (rate_of pf m) (dim_x m) dt (X k) = Ok (X (Datatypes.S k), XD (Datatypes.S k))).
Proof.
  intros W F Hx. set (st := fun p : list R * list R => match step_rk (rate_of pf m) (dim_x m) dt (fst p) with Ok q => q | Err _ => ([], []) end).
  set (seqn := fix seqn k := match k with O => (x, []) | Datatypes.S k' => st (seqn k') end).
  exists (fun k => fst (seqn k)), (fun k => snd (seqn k)). split; [reflexivity|].
  assert (L : forall k, length (fst (seqn k)) = dim_x m).
  { induction k as [|k IH]; [exact Hx|]. cbn [seqn]. unfold st. destruct (step_total m dt _ W F IH) as (x' & xd & E & L & _). rewrite E. exact L. }
  intros k. split; [apply L|]. cbn [seqn]. unfold st. destruct (step_total m dt _ W F (L k)) as (x' & xd & E & L' & L2). rewrite E. cbn [fst snd]. now split.
Qed.
Lemma field_dmp w lo hi T n s mt : wf pf (w_dmp w) -> synced (w_dmp w) -> plain_goal (w_dmp w) -> dmp_regular (w_dmp w) 0 -> free (w_dmp w) ->
  sched_ready sf w -> bounded_by w lo hi -> single w lo hi -> (forall ph i, (i < m_dim (w_dmp w))%nat -> 0 <= gain_value sf w lo hi ph i) -> 0 < mt -> (2 <= n)%Z ->
  exists m' X XD rows, let m := w_dmp w in let dt := T / (IZR n - 1) in
    m_start pf m None = Ok (m', X 0%nat, XD 0%nat) /\
    (forall k, step_rk (rate_of pf m') (dim_x m) dt (X k) = Ok (X (Datatypes.S k), XD (Datatypes.S k))) /\
    perform_field_rollout pf sf w T n s mt = Ok rows /\ length rows = Z.to_nat n /\
    forall k i, (k < length rows)%nat -> (i < m_dim m)%nat -> let r := row_at rows k in
      pos_des r i = nth i (X k) 0 /\ vel_des r i = nth i (XD k) 0 /\ acc_des r i = nth (m_dim m + i) (XD k) 0 / m_tau m /\
      gain r i = gain_value sf w lo hi (nth (3 * m_dim m) (X k) 0) i /\
      length (q_y (u_des r)) = m_dim m /\ length (q_yd (u_des r)) = m_dim m /\ length (q_ydd (u_des r)) = m_dim m /\ length (q_gain (u_des r)) = m_dim m.
Proof.
  intros W Sy Pl R0 F Sr B N Hg Hm Hn. destruct (start_state pf (w_dmp w) W Sy Pl R0) as (m' & x & xd & E & Lx & _).
  pose proof (start_touch pf _ _ _ _ E) as T'. destruct (touched_parts _ _ T') as (Dm & Dt & Dp & Da & Dd & Dg).
  destruct (touched_sound pf _ _ (wf_sound pf _ W) T') as (S' & _ & Q & _). pose proof (sound_wf pf m' S' (Q (wf_ready pf _ W))) as W'.
  assert (F' : free m').
  { destruct F as (U1 & U2 & U3 & U4). unfold free. rewrite Dp, Da, Dd. do 2 (split; [trivial|]). split; [|trivial]. intros g Eg. exact (Dg g Eg U3). }
  assert (Dx : dim_x m' = dim_x (w_dmp w)) by (unfold dim_x; now rewrite Dm).
  assert (Lxd : length xd = dim_x (w_dmp w)).
  { exact (start_rate_length _ _ _ _ E Lx). }
  set (dt := T / (IZR n - 1)).
  destruct (states_exist m' dt x W' F' ltac:(congruence)) as (X & XD & X0 & HX).
  set (XD' := fun k => match k with O => xd | _ => XD k end).
  assert (Wi : forall k, wish_at (wdmp * list R) (field_start pf sf w) (field_step pf sf) dt k = Ok ((upd_dmp w m', X k), wish_for (w_dmp w) (gain_value sf w lo hi (nth (3 * m_dim (w_dmp w)) (X k) 0)) (X k) (XD' k))).
  { induction k as [|k IH]; cbn [wish_at].
    - rewrite X0. now apply field_start_ok.
    - rewrite IH. cbn [bind fst]. destruct (HX k) as (L1 & L2 & Es).
      rewrite (field_step_ok (upd_dmp w m') lo hi dt (X k) (X (Datatypes.S k)) (XD (Datatypes.S k))); trivial.
      + cbn [upd_dmp w_dmp w_fas]. unfold wish_for, gain_value, schedule_of. cbn [upd_dmp w_dmp w_fas]. rewrite Dm, Dt. reflexivity.
      + unfold usable_gains in *. cbn [upd_dmp w_dmp w_fas]. now rewrite Dm. }
  destruct (roll_total (wdmp * list R) (m_dim (w_dmp w)) (field_start pf sf w) (field_step pf sf) T n s mt Hm Hn) as [rows Er].
  { intros k Hk. fold dt. eexists _, _. split; [apply Wi|]. cbn [wish_for q_gain]. apply Forall_forall. intros g Hin. apply in_map_iff in Hin.
    destruct Hin as (i & <- & Hi). apply in_seq in Hi. apply Hg. lia. }
  exists m', X, XD', rows. cbv zeta. fold dt. rewrite <- X0 in E. split; [exact E|]. split; [intros k; rewrite <- Dx; apply HX|]. split; [exact Er|].
  destruct (roll_inv _ _ _ _ T n s mt rows Hm Er) as (_ & L & H & _). fold dt in H. split; [exact L|]. intros k i Hk Hi.
  destruct (H k Hk) as (_ & st & Ew). rewrite Wi in Ew. assert (Ew' := f_equal (fun p => match p with Ok q => snd q | Err _ => no_wish end) Ew). cbv beta iota in Ew'. cbn [snd] in Ew'.
  unfold pos_des, vel_des, acc_des, gain. rewrite <- Ew'. unfold wish_for. cbn [q_y q_yd q_ydd q_gain]. rewrite !nth_map_seq by trivial. rewrite !map_length, !seq_length. now repeat split.
Qed.
End S.

(** the table of a rollout *)
Definition full_row (d : nat) (r : frow) : Prop := length (u_y r) = d /\ length (u_yd r) = d /\ length (u_ydd r) = d /\
  length (q_gain (u_des r)) = d /\ length (q_y (u_des r)) = d /\ length (q_yd (u_des r)) = d /\ length (q_ydd (u_des r)) = d.
Lemma field_row_at d r : full_row d r -> length (field_row r) = (1 + 7 * d)%nat /\ nth 0 (field_row r) 0 = u_t r /\
  forall j, (j < d)%nat -> nth (1 + j) (field_row r) 0 = pos r j /\ nth (1 + d + j) (field_row r) 0 = vel r j /\
    nth (1 + 2 * d + j) (field_row r) 0 = acc r j /\ nth (1 + 3 * d + j) (field_row r) 0 = gain r j /\ nth (1 + 4 * d + j) (field_row r) 0 = pos_des r j /\
    nth (1 + 5 * d + j) (field_row r) 0 = vel_des r j /\ nth (1 + 6 * d + j) (field_row r) 0 = acc_des r j.
Proof.
  intros (L1 & L2 & L3 & L4 & L5 & L6 & L7). unfold field_row. split; [cbn [length]; rewrite !app_length; lia|]. split; [reflexivity|].
  intros j Hj. unfold pos, vel, acc, gain, pos_des, vel_des, acc_des. cbn [Nat.add nth].
  repeat split.
  all: repeat first [rewrite (app_nth1 _ _ 0) by (rewrite ?app_length; lia) | rewrite (app_nth2 _ _ 0) by lia]; f_equal; lia.
Qed.
