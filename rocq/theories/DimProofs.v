(** The dimensions of DMPs do not influence each other: step-by-step executions. *)
From Coq Require Import String Lia Lra.
From Verif Require Import Base BaseLemmas DynModel DynSpec DynProofs DynProofs2 ParamModel TrajModel DmpModel DmpSpec DmpSpec2 DmpProofs5 DmpProofs14 DmpProofs16 DmpProofs19 IntModel PushSpec PushProofs PushProofs2 ReachProofs2 DimSpec.
Open Scope R_scope.

Section D.
Variables pf pf' : nat -> list (string * pval) -> R -> res R.
Variables m m' : dmp.
Variables i j : nat.
Hypothesis W : wf pf m.
Hypothesis W' : wf pf' m'.
Hypothesis Sd : same_dimension pf pf' m m' i j.
Hypothesis Up : unrestricted (m_phase m).
Hypothesis Ug : unrestricted (m_gating m).
Notation sv := (same_state m m' i j).

Lemma plain_both : plain m /\ plain m'.
Proof.
  destruct Sd as (_ & _ & _ & P & G & D & D' & _ & _ & _ & _ & _ & _ & H). unfold plain, tags. cbn [fst snd]. rewrite P, G, D, D'.
  destruct (m_phase m); try contradiction; destruct (m_gating m); try contradiction; destruct (m_goal m) as [[| | |]|]; try contradiction; destruct (m_goal m') as [[| | |]|]; try contradiction;
    cbn; repeat split; discriminate.
Qed.
Lemma goal_rate q x gd pfq k : wf pfq q -> (k < m_dim q)%nat -> (match m_goal q with None => True | Some (SubE _) => True | _ => False end) ->
  (match m_goal q with None => gd = repeat 0 (m_dim q) | Some g => exists g1, sub_set_attr g (m_attr q) = Ok g1 /\ sub_diffeq g1 (part (2 * m_dim q) (m_dim q) x) = Ok gd end) ->
  nth k gd 0 = match m_goal q with Some (SubE e) => par_val (e_alpha e) k * (nth k (m_attr q) 0 - nth (2 * m_dim q + k) x 0) / e_tau e | _ => 0 end.
Proof.
  intros Wq Hk Hg Sg. destruct (m_goal q) as [g|] eqn:Eg; [|subst gd; apply nth_repeat]. destruct g as [e| | |]; try contradiction.
  destruct Sg as (g1 & Es & Ed). cbn [sub_set_attr] in Es.
  destruct (Nat.eqb_spec (length (m_attr q)) (length (e_init e))) as [La|]; [|discriminate]. apply (f_equal (fun r => match r with Ok q => q | Err _ => SubE e end)) in Es. subst g1.
  assert (O : opt_ok (m_dim q) (m_goal q)) by apply Wq. rewrite Eg in O. destruct O as ((O1 & O2 & O3) & O4). unfold sub_dim in O4. cbn [sub_init] in O4. cbn [sub_tau] in O1.
  cbn [sub_diffeq] in Ed. rewrite e_diffeq_ok in Ed; cbn [e_tau e_attr e_init e_alpha] in *; trivial; [|unfold part; rewrite map_length, seq_length; congruence].
  apply (f_equal (fun r => match r with Ok q => q | Err _ => gd end)) in Ed. subst gd. rewrite nth_map_seq by lia. unfold part. rewrite nth_map_seq by lia. reflexivity.
Qed.
Lemma diffeq_same m1 m1' x x' : touched m m1 -> touched m' m1' -> length x = dim_x m -> length x' = dim_x m' -> sv x x' ->
  exists m2 xd m2' xd', m_diffeq pf m1 x = Ok (m2, xd) /\ m_diffeq pf' m1' x' = Ok (m2', xd') /\ touched m m2 /\ touched m' m2' /\ length xd = dim_x m /\ length xd' = dim_x m' /\ sv xd xd'.
Proof.
  intros T T' L L' V. destruct plain_both as [Pm Pm'].
  destruct (diffeq_plain pf m m1 x W Pm T L) as (m2 & xd & E & T2 & Ld). destruct (diffeq_plain pf' m' m1' x' W' Pm' T' L') as (m2' & xd' & E' & T2' & Ld').
  exists m2, xd, m2', xd'. split; [exact E|]. split; [exact E'|]. split; [exact T2|]. split; [exact T2'|]. split; [exact Ld|]. split; [exact Ld'|].
  rewrite (touch_diffeq pf m m1 x T) in E. rewrite (touch_diffeq pf' m' m1' x' T') in E'.
  destruct (proj1 (equation_iff pf m W x xd L) (ex_intro _ _ E)) as (_ & gd & pd & ad & cd & (Sg & Sp & Sa & _) & Ep & Ea & He).
  destruct (proj1 (equation_iff pf' m' W' x' xd' L') (ex_intro _ _ E')) as (_ & gd' & pd' & ad' & cd' & (Sg' & Sp' & Sa' & _) & Ep' & Ea' & He').
  destruct Sd as (Hi & Hj & Et & P & G & D & D' & S1 & S2 & S3 & At & Fc & Pd & Go). destruct V as (V1 & V2 & V3 & V4 & V5).
  destruct (He i Hi) as (H1 & H2 & H3 & _). destruct (He' j Hj) as (H1' & H2' & H3' & _). assert (Ht : m_tau m <> 0) by apply W.
  assert (Gn : goal_now m' x' j = goal_now m x i).
  { unfold goal_now. destruct (m_goal m) as [[e| | |]|]; try contradiction; destruct (m_goal m') as [[e'| | |]|]; try contradiction; [|exact At]. destruct Go as (R1 & R2 & _). unfold target. rewrite R1, R2. exact V3. }
  split; [|split; [|split; [|split]]].
  - apply (Rmult_eq_reg_l (m_tau m)); [|exact Ht]. rewrite H1. rewrite <- Et, H1'. exact V2.
  - apply (Rmult_eq_reg_l (m_tau m)); [|exact Ht]. rewrite H2. rewrite <- Et, H2'. unfold damping_now, forcing_now. rewrite D, D', S1, S2, S3, Gn, V1, V2, V4, V5, Fc, Pd. reflexivity.
  - rewrite H3, H3'. rewrite (goal_rate m x gd pf i W Hi), (goal_rate m' x' gd' pf' j W' Hj); trivial.
    + destruct (m_goal m) as [[e| | |]|]; try contradiction; destruct (m_goal m') as [[e'| | |]|]; try contradiction; [|reflexivity]. destruct Go as (_ & _ & -> & ->). rewrite At, V3. reflexivity.
    + destruct (m_goal m) as [[e| | |]|]; try contradiction; destruct (m_goal m') as [[e'| | |]|]; try contradiction; exact I.
    + destruct (m_goal m) as [[e| | |]|]; try contradiction; destruct (m_goal m') as [[e'| | |]|]; try contradiction; exact I.
  - rewrite Ep, Ep'. rewrite P, V4 in Sp'. rewrite Sp in Sp'. congruence.
  - rewrite Ea, Ea'. rewrite G, V5 in Sa'. rewrite Sa in Sa'. congruence.
Qed.
Lemma sum_same f c x x' k k' : (forall r, f r = c * r) -> length x = dim_x m -> length x' = dim_x m' -> length k = dim_x m -> length k' = dim_x m' -> sv x x' -> sv k k' ->
  exists y y', vop Rplus x (map f k) = Ok y /\ vop Rplus x' (map f k') = Ok y' /\ length y = dim_x m /\ length y' = dim_x m' /\ sv y y'.
Proof.
  intros Hf L L' Lk Lk' V Vk. destruct (vop_total _ f x k L Lk) as (y & E & Ly). destruct (vop_total _ f x' k' L' Lk') as (y' & E' & Ly').
  exists y, y'. do 4 (split; [assumption|]). destruct (vop_nth _ f c x k y Hf L Lk E) as [_ N]. destruct (vop_nth _ f c x' k' y' Hf L' Lk' E') as [_ N'].
  destruct V as (V1 & V2 & V3 & V4 & V5). destruct Vk as (U1 & U2 & U3 & U4 & U5). unfold same_state. cbv zeta. rewrite !N, !N'. rewrite V1, V2, V3, V4, V5, U1, U2, U3, U4, U5. repeat split; reflexivity.
Qed.
Lemma step_same me dt m1 m1' x x' : touched m m1 -> touched m' m1' -> length x = dim_x m -> length x' = dim_x m' -> sv x x' ->
  exists m2 y xd m2' y' xd', m_step pf me m1 dt x = Ok (m2, y, xd) /\ m_step pf' me m1' dt x' = Ok (m2', y', xd') /\ touched m m2 /\ touched m' m2' /\ length y = dim_x m /\ length y' = dim_x m' /\
    sv y y' /\ sv xd xd'.
Proof.
  intros T T' L L' V. pose proof (proj1 (touched_dim m m1 T)) as Dx. pose proof (proj1 (touched_dim m' m1' T')) as Dx'.
  destruct me; unfold m_step, m_step_rk, m_step_euler; rewrite Dx, L, Dx', L', !Nat.eqb_refl.
  - destruct (diffeq_same m1 m1' x x' T T' L L' V) as (m2 & k1 & m2' & k1' & -> & -> & T2 & T2' & L1 & L1' & V1). cbn [bind].
    destruct (sum_same (Rmult (dt * 0.5)) (dt * 0.5) x x' k1 k1' (fun r => eq_refl) L L' L1 L1' V V1) as (i2 & i2' & -> & -> & L2 & L2' & V2). cbn [bind].
    destruct (diffeq_same m2 m2' i2 i2' T2 T2' L2 L2' V2) as (m3 & k2 & m3' & k2' & -> & -> & T3 & T3' & L3 & L3' & V3). cbn [bind].
    destruct (sum_same (Rmult (dt * 0.5)) (dt * 0.5) x x' k2 k2' (fun r => eq_refl) L L' L3 L3' V V3) as (i3 & i3' & -> & -> & L4 & L4' & V4). cbn [bind].
    destruct (diffeq_same m3 m3' i3 i3' T3 T3' L4 L4' V4) as (m4 & k3 & m4' & k3' & -> & -> & T4 & T4' & L5 & L5' & V5). cbn [bind].
    destruct (sum_same (Rmult dt) dt x x' k3 k3' (fun r => eq_refl) L L' L5 L5' V V5) as (i4 & i4' & -> & -> & L6 & L6' & V6). cbn [bind].
    destruct (diffeq_same m4 m4' i4 i4' T4 T4' L6 L6' V6) as (m5 & k4 & m5' & k4' & -> & -> & T5 & T5' & L7 & L7' & V7). cbn [bind].
    destruct (sum_same (fun r => r) 1 k2 k2' k3 k3' (fun r => eq_sym (Rmult_1_l r)) L3 L3' L5 L5' V3 V5) as (s2 & s2' & E8 & E8' & L8 & L8' & V8). rewrite map_id in E8, E8'. rewrite E8, E8'. cbn [bind].
    destruct (sum_same (Rmult 2) 2 k1 k1' s2 s2' (fun r => eq_refl) L1 L1' L8 L8' V1 V8) as (s3 & s3' & -> & -> & L9 & L9' & V9). cbn [bind].
    destruct (sum_same (fun r => r) 1 s3 s3' k4 k4' (fun r => eq_sym (Rmult_1_l r)) L9 L9' L7 L7' V9 V7) as (s4 & s4' & E10 & E10' & L10 & L10' & V10). rewrite map_id in E10, E10'. rewrite E10, E10'. cbn [bind].
    destruct (sum_same (fun v => dt * v / 6) (dt / 6) x x' s4 s4' ltac:(intros r; cbv beta; field) L L' L10 L10' V V10) as (y & y' & -> & -> & L11 & L11' & V11). cbn [bind].
    destruct (diffeq_same m5 m5' y y' T5 T5' L11 L11' V11) as (m6 & xd & m6' & xd' & -> & -> & T6 & T6' & _ & _ & V12). cbn [bind].
    exists m6, y, xd, m6', y', xd'. repeat (split; [assumption || reflexivity|]). assumption.
  - destruct (diffeq_same m1 m1' x x' T T' L L' V) as (m2 & k1 & m2' & k1' & -> & -> & T2 & T2' & L1 & L1' & V1). cbn [bind].
    destruct (sum_same (Rmult dt) dt x x' k1 k1' (fun r => eq_refl) L L' L1 L1' V V1) as (y & y' & -> & -> & L2 & L2' & V2). cbn [bind].
    exists m2, y, k1, m2', y', k1'. repeat (split; [assumption || reflexivity|]). assumption.
Qed.
Lemma steps_same me dt k : forall m1 m1' x x', touched m m1 -> touched m' m1' -> length x = dim_x m -> length x' = dim_x m' -> sv x x' ->
  exists m2 y m2' y', steps pf me m1 dt x k = Ok (m2, y) /\ steps pf' me m1' dt x' k = Ok (m2', y') /\ touched m m2 /\ touched m' m2' /\ length y = dim_x m /\ length y' = dim_x m' /\ sv y y'.
Proof.
  induction k as [|k IH]; intros m1 m1' x x' T T' L L' V; cbn [steps]; [exists m1, x, m1', x'; repeat (split; [assumption || reflexivity|]); assumption|].
  destruct (step_same me dt m1 m1' x x' T T' L L' V) as (m2 & y & xd & m2' & y' & xd' & -> & -> & T2 & T2' & L2 & L2' & V2 & _). cbn [bind fst snd]. now apply IH.
Qed.
End D.
