(** The dimensions of DMPs do not influence each other: executions in which the goals are changed on the way. *)
From Coq Require Import String Lia Lra.
From Verif Require Import Base BaseLemmas DynModel DynSpec DynProofs DynProofs2 ParamModel TrajModel DmpModel DmpSpec DmpSpec2 DmpProofs5 DmpProofs14 IntModel PushSpec PushProofs PushProofs2 ReachSpec DimSpec DimProofs.
Open Scope R_scope.

Section D.
Variables pf pf' : nat -> list (string * pval) -> R -> res R.
Variables i j : nat.

Lemma same_touched m m' m1 m1' : same_dimension pf pf' m m' i j -> touched m m1 -> touched m' m1' -> same_dimension pf pf' m1 m1' i j.
Proof.
  intros (Hi & Hj & Et & P & G & D & D' & S1 & S2 & S3 & At & Fc & Pd & Go) (a & p & g & -> & Hp & Hg) (a' & p' & g' & -> & Hp' & Hg').
  assert (p = d_damp (m_spring m)) by (destruct Hp as [->|[Hp _]]; [reflexivity|contradiction]). assert (p' = d_damp (m_spring m')) by (destruct Hp' as [->|[Hp' _]]; [reflexivity|contradiction]). subst p p'.
  unfold same_dimension. cbn [upd_spring m_dim m_tau m_phase m_gating m_damping m_spring m_attr m_goal m_req d_spring d_damp d_mass].
  do 11 (split; [assumption|]). split; [exact Fc|]. split; [exact Pd|].
  destruct (m_goal m) as [[e| | |]|]; try contradiction; destruct (m_goal m') as [[e'| | |]|]; try contradiction.
  - assert (X : exists b, g = Some (SubE b) /\ e_tau b = e_tau e /\ e_alpha b = e_alpha e).
    { destruct Hg as [->|(q & -> & E)]; [now exists e|]. cbn [sub_set_attr] in E. destruct (Nat.eqb _ _); [|discriminate]. injection E as <-. eexists. now repeat split. }
    assert (X' : exists b, g' = Some (SubE b) /\ e_tau b = e_tau e' /\ e_alpha b = e_alpha e').
    { destruct Hg' as [->|(q & -> & E)]; [now exists e'|]. cbn [sub_set_attr] in E. destruct (Nat.eqb _ _); [|discriminate]. injection E as <-. eexists. now repeat split. }
    destruct X as (b & -> & -> & ->). destruct X' as (b' & -> & -> & ->). exact Go.
  - rewrite Hg, Hg'. exact I.
Qed.
Lemma same_attr m m' g g' m1 m1' : same_dimension pf pf' m m' i j -> m_scaling m' = m_scaling m -> nth j g' 0 = nth i g 0 -> set_yattr m g = Ok m1 -> set_yattr m' g' = Ok m1' ->
  same_dimension pf pf' m1 m1' i j /\ m_scaling m1' = m_scaling m1.
Proof.
  intros (Hi & Hj & Et & P & G & D & D' & S1 & S2 & S3 & At & Fc & Pd & Go) Sc Eg E E'. unfold set_yattr in E, E'.
  destruct (Nat.eqb _ _); [|discriminate]. destruct (Nat.eqb _ _) in E'; [|discriminate].
  destruct (goal_attr m g) as [q|] eqn:Q; [|discriminate]. destruct (goal_attr m' g') as [q'|] eqn:Q'; [|discriminate]. cbn [bind] in E, E'.
  apply (f_equal (fun r => match r with Ok q => q | Err _ => m end)) in E. apply (f_equal (fun r => match r with Ok q => q | Err _ => m end)) in E'. subst m1 m1'.
  split; [|exact Sc]. unfold same_dimension. cbn [upd_attr m_dim m_tau m_phase m_gating m_damping m_spring m_attr m_goal m_req].
  do 10 (split; [assumption|]). split; [exact Eg|]. split.
  { unfold factor in *. cbn [upd_attr m_scaling m_attr m_y0 m_amps]. rewrite Sc in *. destruct (m_scaling m); [reflexivity|lra|exact Fc]. }
  split; [exact Pd|]. unfold goal_attr in Q, Q'.
  destruct (m_goal m) as [[e| | |]|]; try contradiction; destruct (m_goal m') as [[e'| | |]|]; try contradiction.
  - destruct Go as (R1 & R2 & T & A). rewrite R1 in Q. rewrite R2 in Q'. cbn [sub_set_attr] in Q, Q'. destruct (Nat.eqb _ _) in Q; [|discriminate]. destruct (Nat.eqb _ _) in Q'; [|discriminate].
    cbn [bind] in Q, Q'. injection Q as <-. injection Q' as <-. now repeat split.
  - injection Q as <-. injection Q' as <-. exact I.
Qed.
Lemma chase_same me dt plan plan' : forall m m' m1 m1' x x', sound pf m -> ready m -> sound pf' m' -> ready m' -> same_dimension pf pf' m m' i j -> m_scaling m' = m_scaling m ->
  unrestricted (m_phase m) -> unrestricted (m_gating m) -> touched m m1 -> touched m' m1' -> length x = dim_x m -> length x' = dim_x m' -> same_state m m' i j x x' ->
  same_plan (m_dim m) (m_dim m') i j plan plan' ->
  exists m2 y m2' y', chase pf me m1 dt x plan = Ok (m2, y) /\ chase pf' me m1' dt x' plan' = Ok (m2', y') /\ same_state m m' i j y y'.
Proof.
  revert plan'. induction plan as [|[k g] plan IH]; intros plan' m m' m1 m1' x x' S Rd S' Rd' Sd Sc U1 U2 T T' L L' V Pl.
  - inversion Pl; subst. exists m1, x, m1', x'. now split.
  - inversion Pl as [|? [k' g'] ? pl' (Ek & Lg & Lg' & Eg) Pl']; subst. cbn [fst snd] in *. subst k'.
    pose proof (sound_wf pf m S Rd) as W. pose proof (sound_wf pf' m' S' Rd') as W'.
    destruct (steps_same pf pf' m m' i j W W' Sd U1 U2 me dt k m1 m1' x x' T T' L L' V) as (m2 & y & m2' & y' & E & E' & T2 & T2' & Ly & Ly' & V2).
    cbn [chase]. rewrite E, E'. cbn [bind fst snd].
    pose proof (same_touched m m' m2 m2' Sd T2 T2') as Sd2.
    destruct (touched_sound pf m m2 S T2) as (S2 & D2 & R2 & _). specialize (R2 Rd). destruct (touched_sound pf' m' m2' S' T2') as (S2' & D2' & R2' & _). specialize (R2' Rd').
    destruct (set_yattr_sound pf m2 g S2 ltac:(congruence)) as (q & Q & E3 & S3). destruct (set_yattr_sound pf' m2' g' S2' ltac:(congruence)) as (q' & Q' & E3' & S3'). rewrite E3, E3'. cbn [bind].
    assert (Sc2 : m_scaling m2' = m_scaling m2) by (destruct T2 as (? & ? & ? & -> & _); destruct T2' as (? & ? & ? & -> & _); exact Sc).
    destruct (same_attr m2 m2' g g' _ _ Sd2 Sc2 Eg E3 E3') as [Sd3 Sc3].
    assert (U2' : m_phase m2 = m_phase m /\ m_gating m2 = m_gating m) by (destruct T2 as (? & ? & ? & -> & _); now split). destruct U2' as [Up Ug].
    assert (Dx : forall f n a h hh, wf f n -> wf f (upd_attr n a h) -> m_dim (upd_attr n a h) = hh -> dim_x (upd_attr n a h) = dim_x n).
    { intros f n a h hh _ _ _. reflexivity. }
    destruct (touched_dim m m2 T2) as (X2 & _). destruct (touched_dim m' m2' T2') as (X2' & _).
    destruct (IH pl' (upd_attr m2 g q) (upd_attr m2' g' q') (upd_attr m2 g q) (upd_attr m2' g' q') y y' S3 R2 S3' R2' Sd3 Sc3) as (m4 & z & m4' & z' & E4 & E4' & V4).
    + cbn [upd_attr m_phase]. now rewrite Up.
    + cbn [upd_attr m_gating]. now rewrite Ug.
    + apply touched_refl.
    + apply touched_refl.
    + rewrite Ly. symmetry. exact X2.
    + rewrite Ly'. symmetry. exact X2'.
    + unfold same_state. cbn [upd_attr m_dim]. rewrite D2, D2'. exact V2.
    + cbn [upd_attr m_dim]. rewrite D2, D2'. exact Pl'.
    + exists m4, z, m4', z'. split; [exact E4|]. split; [exact E4'|]. unfold same_state in V4. cbn [upd_attr m_dim] in V4. rewrite D2, D2' in V4. exact V4.
Qed.
End D.
