(** Proofs about the C++ counterpart: what can not be read, or is not read. *)
From Coq Require Import String.
From Verif Require Import Base BaseLemmas DynModel DynSpec DynProofs ParamModel FaModel TrajModel DmpModel DmpSpec DmpSpec2 DmpProofs DmpProofs2 DmpProofs3 DmpProofs5 DmpProofs19 CppModel CppSpec CppProofs CppProofs2 CppProofs3 CppProofs5.
Open Scope string_scope.
Open Scope R_scope.

(** ** what must hold for a DMP to be read *)
Lemma load_exp_needs s c : load_exp (sub_json s) = Ok c -> exists e a, s = SubE e /\ e_alpha e = PScal a.
Proof.
  destruct s as [e|g|h|t]; intros E.
  - exists e. unfold load_exp in E.
    change (jat (sub_json (SubE e)) "_tau") with (Ok (JNum (e_tau e))) in E. cbn [bind jnum] in E.
    change (jat (sub_json (SubE e)) "alpha") with (Ok (param_json (e_alpha e))) in E. cbn [bind] in E.
    destruct (e_alpha e) as [a|l]; [|discriminate]. now exists a.
  - unfold load_exp in E. change (jat (sub_json (SubS g)) "_tau") with (Ok (JNum (g_tau g))) in E. cbn [bind jnum] in E.
    change (jat (sub_json (SubS g)) "alpha") with (@Err json KeyError) in E. discriminate.
  - unfold load_exp in E. change (jat (sub_json (SubR h)) "_tau") with (Ok (JNum (h_tau h))) in E. cbn [bind jnum] in E.
    change (jat (sub_json (SubR h)) "alpha") with (Ok (param_json (h_alpha h))) in E. cbn [bind] in E.
    destruct (jnum (param_json (h_alpha h))) as [al|]; [|discriminate]. cbn [bind] in E.
    change (jat (sub_json (SubR h)) "_x_init") with (Ok (vec_json (h_init h))) in E. cbn [bind] in E. rewrite jvec_vec in E. cbn [bind] in E.
    change (jat (sub_json (SubR h)) "_x_attr") with (@Err json KeyError) in E. discriminate.
  - unfold load_exp in E. change (jat (sub_json (SubT t)) "_tau") with (Ok (JNum (t_tau t))) in E. cbn [bind jnum] in E.
    change (jat (sub_json (SubT t)) "alpha") with (@Err json KeyError) in E. discriminate.
Qed.
Lemma transfer_needs kinds m c : transfer kinds m = Ok c ->
  (exists d, d_damp (m_spring m) = PScal d) /\ (exists y0, m_y0 m = Some y0) /\
  exists e a, m_goal m = Some (SubE e) /\ e_alpha e = PScal a.
Proof.
  unfold transfer, load_dmp. intros E.
  change (jat (dmp_json kinds m) "_tau") with (Ok (JNum (m_tau m))) in E. cbn [bind jnum] in E.
  change (jat (dmp_json kinds m) "_spring_system") with (Ok (spring_json (m_spring m))) in E. cbn [bind] in E.
  change (jat (spring_json (m_spring m)) "damping_coefficient") with (Ok (param_json (d_damp (m_spring m)))) in E. cbn [bind] in E.
  destruct (d_damp (m_spring m)) as [d|l]; [|discriminate]. cbn [param_json jnum bind] in E.
  destruct (m_y0 m) as [y0|] eqn:Ey.
  2:{ exfalso. assert (Z : jat (dmp_json kinds m) "_y_init" = Err KeyError) by (unfold dmp_json; rewrite Ey; reflexivity). rewrite Z in E. discriminate. }
  assert (Z : jat (dmp_json kinds m) "_y_init" = Ok (vec_json y0)) by (unfold dmp_json; rewrite Ey; reflexivity). rewrite Z in E. cbn [bind] in E.
  rewrite jvec_vec in E. cbn [bind] in E.
  change (jat (dmp_json kinds m) "_y_attr") with (Ok (vec_json (m_attr m))) in E. cbn [bind] in E. rewrite jvec_vec in E. cbn [bind] in E.
  change (jat (dmp_json kinds m) "_goal_system") with (Ok (opt_json sub_json (m_goal m))) in E. cbn [bind] in E.
  split; [now exists d|]. split; [now exists y0|].
  destruct (m_goal m) as [g|]; [|discriminate]. cbn [opt_json] in E. destruct (load_exp (sub_json g)) as [ce|] eqn:Eg; [|discriminate].
  destruct (load_exp_needs g ce Eg) as (e & a & -> & Ea). now exists e, a.
Qed.
(** DMPs without exponential goal system *)
Lemma transfer_no_goal kinds m : m_goal m = None -> exists e, transfer kinds m = Err e.
Proof.
  intros G. destruct (transfer kinds m) as [c|e] eqn:E; [|now exists e]. destruct (transfer_needs kinds m c E) as (_ & _ & e & a & Eg & _). congruence.
Qed.

(** ** what is not read: the spring constant, the mass and the damping system *)
Lemma not_read kinds m k mass da : transfer kinds (replaced m k mass da) = transfer kinds m.
Proof.
  unfold transfer, load_dmp.
  assert (Y : jat (dmp_json kinds (replaced m k mass da)) "_y_init" = jat (dmp_json kinds m) "_y_init").
  { unfold dmp_json, replaced. cbn [m_y0]. destruct (m_y0 m); reflexivity. }
  rewrite Y. reflexivity.
Qed.

Section Differ.
Variable ex : R -> R.
Variable kinds : nat -> fa_kind.
Notation pf := (py_predict ex kinds).
Variable m : dmp.
Hypothesis W : wf pf m.
Hypothesis Po : portable kinds m.
Hypothesis Hn : (0 < m_dim m)%nat.
Notation n := (m_dim m).

Lemma replaced_wf k mass da : mass <> 0 -> opt_ok n da -> wf pf (replaced m (PScal k) (PScal mass) da).
Proof.
  intros Hm Hd. destruct W as (A1 & A2 & A3 & A4 & A5 & A6 & A7 & A8 & A9 & A10 & A11 & A12 & A13 & A14 & A15 & A16 & A17 & A18 & A19).
  unfold wf, replaced. cbv zeta. cbn [m_tau m_dim m_attr m_y0 m_req m_scaling m_amps m_spring m_goal m_damping m_phase m_gating d_dimy d_tau d_init d_damp d_spring d_mass].
  do 9 (split; [trivial|]). split; [exact I|]. split; [exact I|]. split; [intros; exact Hm|]. do 6 (split; [trivial|]). exact A19.
Qed.
Lemma portable_unrestricted s : sub_portable s -> unrestricted s.
Proof. now destruct s. Qed.

(** a state in which position, velocity and damping coefficient are given *)
Definition probe (y z c : R) : list R := (repeat y n ++ repeat z n ++ repeat 0 n ++ [0; 0] ++ repeat c n)%list.
Lemma probe_length y z c : length (probe y z c) = dim_x m.
Proof. unfold probe, dim_x. rewrite !app_length, !repeat_length. cbn. lia. Qed.
Lemma probe_parts y z c : nth 0 (probe y z c) 0 = y /\ nth n (probe y z c) 0 = z /\ nth (2 * n) (probe y z c) 0 = 0 /\
  nth (3 * n + 1) (probe y z c) 0 = 0 /\ nth (3 * n + 2) (probe y z c) 0 = c.
Proof.
  assert (Q : forall v, nth 0 (repeat v n) 0 = v) by (intros; now apply nth_repeat_lt).
  unfold probe. split; [rewrite app_nth1 by (rewrite repeat_length; lia); apply Q|].
  split; [rewrite app_nth2 by (rewrite repeat_length; lia); rewrite repeat_length, app_nth1 by (rewrite repeat_length; lia); rewrite Nat.sub_diag; apply Q|].
  split; [rewrite app_nth2 by (rewrite repeat_length; lia); rewrite repeat_length, app_nth2 by (rewrite repeat_length; lia);
          rewrite repeat_length, app_nth1 by (rewrite repeat_length; lia); replace (2 * n - n - n)%nat with 0%nat by lia; apply Q|].
  split.
  - do 3 (rewrite app_nth2 by (rewrite repeat_length; lia); rewrite repeat_length). replace (3 * n + 1 - n - n - n)%nat with 1%nat by lia. reflexivity.
  - do 3 (rewrite app_nth2 by (rewrite repeat_length; lia); rewrite repeat_length). rewrite app_nth2 by (cbn; lia). cbn [length].
    replace (3 * n + 2 - n - n - n - 2)%nat with 0%nat by lia. apply Q.
Qed.

Lemma replaced_differs k mass da y z c : mass <> 0 -> opt_ok n da -> (forall s, da = Some s -> unrestricted s) ->
  (forall d, d_damp (m_spring m) = PScal d ->
    (- k * y - match da with None => d | Some _ => c end * z) / mass <> - (d * d / 4) * y - d * z) ->
  exists cpp m2 xd c2 xc, transfer kinds (replaced m (PScal k) (PScal mass) da) = Ok cpp /\
    m_diffeq pf (replaced m (PScal k) (PScal mass) da) (probe y z c) = Ok (m2, xd) /\
    c_diffeq ex cpp (visible n (probe y z c)) = Ok (c2, xc) /\ nth n (visible n xd) 0 <> nth n xc 0.
Proof.
  intros Hm Hda Hu Hd. set (m1 := replaced m (PScal k) (PScal mass) da).
  pose proof (replaced_wf k mass da Hm Hda) as W1. fold m1 in W1.
  pose proof Po as (Ha & Hreq & Hda0 & (y0 & Ey & Ly & Ei & tg & at0 & al & Eg & La) & Hdim & Htau & (d & Ed & Ek) & Emass & Hp & Hga & _).
  specialize (Hd d Ed).
  destruct (diffeq_total pf m1 (probe y z c) W1 (probe_length y z c)) as (m2 & xd & E1).
  { now apply portable_unrestricted. } { now apply portable_unrestricted. }
  { unfold m1. cbn [replaced m_goal]. intros g E. rewrite Eg in E. assert (E2 : g = SubE (Esys tg y0 at0 (PScal al))) by congruence. now subst g. }
  { exact Hu. }
  destruct (diffeq_same ex kinds m W Po (probe y z c) (probe_length y z c)) as (g & xd0 & E2 & _ & L0 & _ & E3).
  exists (img kinds m), m2, xd, (img kinds (m_next m g)), (visible n xd0).
  split; [unfold m1; rewrite not_read; now apply transfer_ok|]. split; [exact E1|]. split; [exact E3|].
  destruct (proj1 (equation_iff pf m1 W1 (probe y z c) xd (probe_length y z c)) (ex_intro _ _ E1)) as (L1 & gd1 & pd1 & ad1 & cd1 & _ & _ & _ & Q1).
  destruct (proj1 (equation_iff pf m W (probe y z c) xd0 (probe_length y z c)) (ex_intro _ _ E2)) as (L2 & gd2 & pd2 & ad2 & cd2 & _ & _ & _ & Q2).
  destruct (Q1 0%nat Hn) as (_ & R1 & _). destruct (Q2 0%nat Hn) as (_ & R2 & _). clear Q1 Q2.
  destruct (probe_parts y z c) as (P1 & P2 & P3 & P4 & P5).
  unfold forcing_now, damping_now, goal_now, target in R1, R2. cbn [m1 replaced m_dim m_spring m_goal m_req m_damping d_spring d_mass d_damp m_tau m_phase m_gating] in R1.
  rewrite Eg, Hreq, !Nat.add_0_r, P1, P2, P3, P4, Ed in R1, R2. rewrite P5 in R1. rewrite Hda0, Ek, Emass in R2. cbn [par_val] in R1, R2.
  assert (Ht : m_tau m <> 0) by apply W.
  assert (V : forall l : list R, length l = dim_x m -> nth n (visible n l) 0 = nth n l 0).
  { intros l Hl. unfold visible. rewrite <- (firstn_skipn (3 * n + 2) l) at 2. rewrite app_nth1; [reflexivity|]. rewrite firstn_length. unfold dim_x in Hl. lia. }
  rewrite !V by trivial. intros Z. change (nth n xd 0) with (nth (m_dim m1) xd 0) in Z. apply Hd.
  assert (R3 : m_tau m * nth n xd 0 = m_tau m * nth n xd0 0) by (change (nth n xd 0) with (nth (m_dim m1) xd 0); now rewrite Z).
  rewrite R2 in R3. change (m_dim m1) with n in R1. rewrite R1 in R3.
  replace (y - 0) with y in R3 by ring. rewrite !Rmult_0_r, !Rmult_0_l, !Rplus_0_r in R3.
  replace (- (d * d / 4) * y - d * z) with ((- (d * d / 4) * y - d * z) / 1) by field. rewrite <- R3. destruct da; reflexivity.
Qed.

(** the spring constant *)
Lemma spring_lost k : d_spring (m_spring m) <> PScal k ->
  exists cpp x m2 xd c2 xc, length x = dim_x m /\ transfer kinds (replaced m (PScal k) (d_mass (m_spring m)) None) = Ok cpp /\
    m_diffeq pf (replaced m (PScal k) (d_mass (m_spring m)) None) x = Ok (m2, xd) /\ c_diffeq ex cpp (visible n x) = Ok (c2, xc) /\ visible n xd <> xc.
Proof.
  intros Hk. pose proof Po as (_ & _ & _ & _ & _ & _ & (d & Ed & Ek) & Emass & _). rewrite Emass.
  destruct (replaced_differs k 1 None 1 0 0) as (cpp & m2 & xd & c2 & xc & A & B & C & D); [lra|exact I|discriminate| |].
  { intros d' E. assert (d' = d) by congruence. subst d'. intros Z. apply Hk. rewrite Ek. f_equal. lra. }
  exists cpp, (probe 1 0 0), m2, xd, c2, xc. split; [apply probe_length|]. repeat split; trivial. intros Z. apply D. now rewrite Z.
Qed.
(** the mass *)
Lemma mass_lost mass : mass <> 0 -> mass <> 1 -> d_damp (m_spring m) <> PScal 0 ->
  exists cpp x m2 xd c2 xc, length x = dim_x m /\ transfer kinds (replaced m (d_spring (m_spring m)) (PScal mass) None) = Ok cpp /\
    m_diffeq pf (replaced m (d_spring (m_spring m)) (PScal mass) None) x = Ok (m2, xd) /\ c_diffeq ex cpp (visible n x) = Ok (c2, xc) /\ visible n xd <> xc.
Proof.
  intros Hm Hm1 Hd0. pose proof Po as (_ & _ & _ & _ & _ & _ & (d & Ed & Ek) & Emass & _). rewrite Ek.
  assert (Hd : d <> 0) by (intros Z; apply Hd0; rewrite Ed; now f_equal).
  destruct (replaced_differs (d * d / 4) mass None 1 0 0) as (cpp & m2 & xd & c2 & xc & A & B & C & D); [trivial|exact I|discriminate| |].
  { intros d' E. assert (d' = d) by congruence. subst d'. intros Z. apply Hm1.
    assert (Z2 : - (d * d / 4) = - (d * d / 4) * mass) by (replace (- (d * d / 4)) with ((- (d * d / 4) * 1 - d * 0) / mass * mass) at 1 by (field; trivial); rewrite Z; ring).
    assert (Q : 0 < d * d) by nra. nra. }
  exists cpp, (probe 1 0 0), m2, xd, c2, xc. split; [apply probe_length|]. repeat split; trivial. intros Z. apply D. now rewrite Z.
Qed.
(** the damping system *)
Lemma damping_lost s : sub_ok s -> sub_dim s = n -> unrestricted s ->
  exists cpp x m2 xd c2 xc, length x = dim_x m /\ transfer kinds (replaced m (d_spring (m_spring m)) (d_mass (m_spring m)) (Some s)) = Ok cpp /\
    m_diffeq pf (replaced m (d_spring (m_spring m)) (d_mass (m_spring m)) (Some s)) x = Ok (m2, xd) /\ c_diffeq ex cpp (visible n x) = Ok (c2, xc) /\ visible n xd <> xc.
Proof.
  intros Hs Hdim Hu. pose proof Po as (_ & _ & _ & _ & _ & _ & (d & Ed & Ek) & Emass & _). rewrite Ek, Emass.
  destruct (replaced_differs (d * d / 4) 1 (Some s) 0 1 (d + 1)) as (cpp & m2 & xd & c2 & xc & A & B & C & D);
    [lra|now split|intros s' E; now injection E as <-| |].
  { intros d' E. assert (d' = d) by congruence. subst d'. lra. }
  exists cpp, (probe 0 1 (d + 1)), m2, xd, c2, xc. split; [apply probe_length|]. repeat split; trivial. intros Z. apply D. now rewrite Z.
Qed.
End Differ.
