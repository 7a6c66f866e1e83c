(** Proofs about the differential equation of a DMP in arbitrary states. *)
From Coq Require Import String.
From Verif Require Import Base BaseLemmas DynModel DynSpec DynProofs DynProofs2 ParamModel TrajModel DmpModel DmpSpec DmpSpec2 DmpProofs DmpProofs2 DmpProofs3 DmpProofs14.
Open Scope R_scope.

(** the parts of a state *)
Lemma split_state n (x : list R) : length x = (4 * n + 2)%nat ->
  exists sp g p a c, x = asm sp g [p] [a] c /\ same_layout n sp g [p] [a] c.
Proof.
  intros H.
  assert (L1 : length (firstn (2 * n) x) = (2 * n)%nat) by (rewrite firstn_length; lia).
  set (x1 := skipn (2 * n) x). assert (H1 : length x1 = (2 * n + 2)%nat) by (unfold x1; rewrite skipn_length; lia).
  set (x2 := skipn n x1). assert (H2 : length x2 = (n + 2)%nat) by (unfold x2; rewrite skipn_length; lia).
  destruct x2 as [|p [|a c]] eqn:E2; cbn in H2; try lia.
  exists (firstn (2 * n) x), (firstn n x1), p, a, c. split.
  - unfold asm. rewrite <- (firstn_skipn (2 * n) x) at 1. f_equal. fold x1. rewrite <- (firstn_skipn n x1) at 1. f_equal. exact E2.
  - repeat split; trivial; [rewrite firstn_length; lia|lia].
Qed.
Lemma vop_length f a b l : vop f a b = Ok l -> length a = length b -> length l = length b.
Proof. intros E H. unfold vop in E. rewrite H, Nat.eqb_refl in E. injection E as <-. rewrite map2_length. lia. Qed.
Lemma pop_length f p b l : pop f p b = Ok l -> par_ok p (length b) -> length l = length b.
Proof. destruct p as [r|v]; cbn; intros E H; [injection E as <-; apply map_length|]. eapply vop_length; eauto. Qed.
Lemma vdiv_length a t l : vdiv a t = Ok l -> length l = length a.
Proof. unfold vdiv. destruct (Req_EM_T t 0); [destruct a; [|discriminate]; intros E; injection E as <-; reflexivity|]. intros E; injection E as <-. apply map_length. Qed.
Lemma sub_diffeq_length s x xd : sub_ok s -> length x = sub_dim s -> sub_diffeq s x = Ok xd -> length xd = sub_dim s.
Proof.
  intros (_ & Hs) Hx E. unfold sub_dim in *. destruct s as [e|g|h|t]; cbn [sub_diffeq sub_init] in *.
  - destruct Hs as [Ha Hp]. unfold e_diffeq in E. destruct (vop _ _ _) as [d|] eqn:Ed; [|discriminate]. cbn [bind] in E.
    apply vop_length in Ed; [|lia]. destruct (pop _ _ _) as [a|] eqn:Ea; [|discriminate]. cbn [bind] in E.
    apply pop_length in Ea; [|now rewrite Ed, Hx]. apply vdiv_length in E. lia.
  - destruct Hs as (Hr & Hi & _). unfold s_diffeq in E. destruct (s_ks g) as [ks|] eqn:Ek; [|discriminate]. cbn [bind] in E.
    unfold s_ks in Ek. apply mapM_ok_length in Ek. rewrite seq_length in Ek. unfold s_diffeq_k in E. destruct (existsb _ _); [discriminate|].
    destruct (vop Rdiv x ks) as [q|] eqn:Eq; [|discriminate]. cbn [bind] in E. apply vop_length in Eq; [|lia].
    destruct (pop _ _ _) as [rx|] eqn:Er; [|discriminate]. cbn [bind] in E. apply pop_length in Er; [|now rewrite Hx].
    apply vop_length in E; rewrite map_length in *; lia.
  - unfold r_diffeq in E. destruct (Nat.eqb _ _); [|discriminate]. apply mapM_ok_length in E. rewrite seq_length in E. lia.
  - unfold t_diffeq in E. rewrite Hs in Hx |- *. destruct x as [|v [|]]; try discriminate. cbn in Hx |- *.
    destruct (t_down t); [destruct (Rlt_dec 0 v)|destruct (Rlt_dec v 1)]; try destruct (Req_EM_T _ 0); try discriminate; injection E as <-; reflexivity.
Qed.
(** the goal system with the attractor of the DMP *)
Lemma set_attr_ok s a n : sub_ok s -> sub_dim s = n -> length a = n -> exists s1, sub_set_attr s a = Ok s1 /\ sub_ok s1 /\ sub_dim s1 = n.
Proof.
  intros Hs Hd Ha. destruct s as [e|g|h|t]; cbn [sub_set_attr]; [|eexists; split; [reflexivity|]; now split..].
  unfold sub_dim in Hd. cbn [sub_init] in Hd. rewrite Ha, Hd, Nat.eqb_refl. eexists. split; [reflexivity|].
  destruct Hs as (H1 & H2 & H3). cbn [sub_tau] in H1. split; [|exact Hd]. split; [exact H1|]. cbn. split; [lia|]. exact H3.
Qed.

Section Eq.
Variable pf : nat -> list (string * pval) -> R -> res R.
Variable m : dmp.
Hypothesis W : wf pf m.
Notation n := (m_dim m).

Lemma part_asm sp g p a c : same_layout n sp g [p] [a] c ->
  part (2 * n) n (asm sp g [p] [a] c) = g /\ part (3 * n + 2) n (asm sp g [p] [a] c) = c.
Proof.
  intros L. pose proof (nth_asm _ _ _ _ _ _ L) as (_ & _ & N3 & _ & _ & N6). destruct L as (_ & L2 & _ & _ & L5).
  unfold part. split.
  - transitivity (map (fun i => nth i g 0) (seq 0 n)); [|rewrite <- L2; symmetry; apply list_eq_map_nth]. apply map_ext_in. intros i Hi. apply in_seq in Hi. apply N3. lia.
  - transitivity (map (fun i => nth i c 0) (seq 0 n)); [|rewrite <- L5; symmetry; apply list_eq_map_nth]. apply map_ext_in. intros i Hi. apply in_seq in Hi. apply N6. lia.
Qed.

Lemma diffeq_general sp g p a c : same_layout n sp g [p] [a] c ->
  let x := asm sp g [p] [a] c in
  let goal := map (goal_now m x) (seq 0 n) in
  let damp := map (damping_now m x) (seq 0 n) in
  let f := map (forcing_now pf m x) (seq 0 n) in
  (forall gd pd ad cd, subsystem_rates m x gd pd ad cd ->
    same_layout n (accs m sp goal damp f) gd [pd] [ad] cd /\
    exists m', m_diffeq pf m x = Ok (m', asm (accs m sp goal damp f) gd [pd] [ad] cd)) /\
  (forall m' xd, m_diffeq pf m x = Ok (m', xd) -> exists gd pd ad cd, subsystem_rates m x gd pd ad cd).
Proof.
  intros LX x goal damp f. pose proof (goal_dim pf m W) as GD. pose proof LX as (S1 & S2 & _ & _ & S5).
  destruct (part_asm _ _ _ _ _ LX) as [Pg Pc].
  pose proof (nth_asm _ _ _ _ _ _ LX) as (_ & _ & N3 & N4 & N5 & N6). cbn [nth] in N4, N5.
  assert (Ha : length (m_attr m) = n) by exact (proj1 (proj2 W)).
  assert (Hg : opt_ok n (m_goal m)) by apply W. assert (Hc : opt_ok n (m_damping m)) by apply W.
  assert (Hp : sub_ok (m_phase m)) by apply W. assert (Hpd : sub_dim (m_phase m) = 1%nat) by apply W.
  assert (Hga : sub_ok (m_gating m)) by apply W. assert (Hgd : sub_dim (m_gating m) = 1%nat) by apply W.
  pose proof (zeros_layout m) as (Z1 & Z2 & Z3 & Z4 & Z5).
  assert (Lgoal : length goal = n) by (unfold goal; now rewrite map_length, seq_length).
  assert (Lf : length f = n) by (unfold f; now rewrite map_length, seq_length).
  split.
  - intros gd pd ad cd (Rg & Rp & Ra & Rc). cbv zeta in Rg, Rc. fold x in N4, N5. rewrite N4 in Rp. rewrite N5 in Ra. fold x in Pg, Pc. rewrite Pg in Rg. rewrite Pc in Rc.
    assert (Lgd : length gd = n).
    { destruct (m_goal m) as [g0|]; [|rewrite Rg; apply repeat_length]. destruct Hg as [Hg1 Hg2]. destruct Rg as (g1 & E1 & E2).
      destruct (set_attr_ok g0 (m_attr m) n Hg1 Hg2 Ha) as (g2 & E3 & O & D). assert (g2 = g1) by congruence. subst g2.
      rewrite (sub_diffeq_length g1 g gd O) by (trivial; lia). exact D. }
    assert (Lcd : length cd = n).
    { destruct (m_damping m) as [s|]; [|rewrite Rc; apply repeat_length]. destruct Hc as [Hc1 Hc2]. rewrite (sub_diffeq_length s c cd Hc1) by (trivial; lia). exact Hc2. }
    split. { split; [apply accs_length|]. now repeat split. }
    assert (E1 : exists goal1, match m_goal m with
      | Some g => let* g1 := sub_set_attr g (m_attr m) in let* xg := get_ix (ix_goal m) x in
                  let* xdg := sub_diffeq g1 xg in let* target := scale_goal m xg in
                  let* sp := d_set_attr (m_spring m) target in Ok (sp, Some g1, xdg)
      | None => let* sp := d_set_attr (m_spring m) (m_attr m) in Ok (sp, None, repeat 0 n) end =
      (let* sp := d_set_attr (m_spring m) goal in Ok (sp, goal1, gd))).
    { unfold goal, goal_now. destruct (m_goal m) as [g0|].
      - destruct Rg as (g1 & A1 & A2). exists (Some g1). rewrite A1. cbn [bind]. unfold x at 1. rewrite (get_goal m GD) by exact LX. cbn [bind].
        rewrite A2. cbn [bind]. rewrite (scale_goal_ok pf m W) by trivial. cbn [bind].
        replace (map (fun i => target m (nth i g 0) i) (seq 0 n)) with (map (fun i => target m (nth (2 * n + i) x 0) i) (seq 0 n)); [reflexivity|].
        apply map_ext_in. intros i Hi. apply in_seq in Hi. unfold x. now rewrite N3 by lia.
      - exists None. rewrite Rg. replace (map (fun i => nth i (m_attr m) 0) (seq 0 n)) with (m_attr m) by (rewrite <- Ha; apply list_eq_map_nth). reflexivity. }
    destruct E1 as [goal1 E1].
    unfold m_diffeq. cbv zeta. fold x. rewrite E1. clear E1. rewrite (spring_attr pf m W) by exact Lgoal. cbn [bind].
    unfold x. rewrite (asm_length m GD _ _ _ _ _ LX), (asm_zero m GD).
    rewrite (put_goal m GD gd gd) by (repeat split; trivial; now apply fit_same). cbn [bind].
    set (spr := Dsys (d_tau (m_spring m)) (d_init (m_spring m)) goal (d_damp (m_spring m)) (d_spring (m_spring m)) (d_mass (m_spring m)) (d_dimy (m_spring m))).
    assert (E2 : exists pr, match m_damping m with
       | Some ds => let* xda := get_ix (ix_damping m) (asm sp g [p] [a] c) in let* xdd := sub_diffeq ds xda in Ok (d_set_damp spr (PVec xda), xdd)
       | None => Ok (spr, repeat 0 n) end = Ok (d_set_damp spr pr, cd) /\ par_ok pr n /\ forall i, (i < n)%nat -> par_val pr i = nth i damp 0).
    { unfold damp, damping_now. destruct (m_damping m) as [s|].
      - exists (PVec c). rewrite (get_damping m GD) by exact LX. cbn [bind]. rewrite Rc. split; [reflexivity|]. split; [exact S5|].
        intros i Hi. rewrite nth_map_seq by trivial. cbn [par_val]. unfold x. now rewrite N6.
      - exists (d_damp (m_spring m)). rewrite Rc. split; [reflexivity|]. split; [apply W|]. intros i Hi. now rewrite nth_map_seq. }
    destruct E2 as (pr & E2 & Hpr & Hpv). rewrite E2. clear E2. cbn [bind].
    rewrite (put_damping m GD cd cd) by (try (repeat split; trivial; lia); now apply fit_same). cbn [bind].
    rewrite (get_spring m) by exact LX. cbn [bind].
    destruct (spring_diffeq pf m W spr sp goal pr damp (spring_attr pf m W goal Lgoal) S1 Lgoal Hpr Hpv) as (xd & Ed & Ef). rewrite Ed. cbn [bind].
    rewrite (get_phase m GD) by exact LX. cbn [bind]. rewrite Rp. cbn [bind].
    rewrite (put_phase m GD [pd] [pd]) by (try (repeat split; trivial; lia); now apply fit_same). cbn [bind].
    rewrite (get_gating m GD) by exact LX. cbn [bind]. rewrite Ra. cbn [bind].
    rewrite (put_gating m GD [ad] [ad]) by (try (repeat split; trivial; lia); now apply fit_same). cbn [bind one].
    rewrite (predictions_ok pf m W). cbn [bind]. rewrite (factors_ok pf m W). cbn [bind].
    assert (EF : forcing (map (factor m) (seq 0 n)) (map (pred_val pf m p) (seq 0 n)) a = f).
    { unfold forcing. rewrite map2_map. unfold f, forcing_now. rewrite N4, N5. reflexivity. }
    rewrite EF, Ef by exact Lf. cbn [bind].
    rewrite (put_spring m _ (accs m sp goal damp f)).
    2:{ repeat split; trivial; lia. }
    2:{ apply fit_same, accs_length. }
    cbn [bind]. eexists. reflexivity.
  - intros m' xd E. unfold m_diffeq in E. cbv zeta in E. unfold subsystem_rates. cbv zeta. fold x in Pg, Pc, N4, N5. rewrite Pg, Pc, N4, N5.
    assert (Gg : get_ix (ix_goal m) x = Ok g) by (unfold x; now rewrite (get_goal m GD) by exact LX).
    assert (Gp : get_ix (ix_phase m) x = Ok [p]) by (unfold x; now rewrite (get_phase m GD) by exact LX).
    assert (Gga : get_ix (ix_gating m) x = Ok [a]) by (unfold x; now rewrite (get_gating m GD) by exact LX).
    assert (Gc : get_ix (ix_damping m) x = Ok c) by (unfold x; now rewrite (get_damping m GD) by exact LX).
    rewrite Gg, Gp, Gga, Gc in E.
    assert (E1 : exists sp1 goal1 gd, match m_goal m with None => gd = repeat 0 n | Some g0 => exists g1, sub_set_attr g0 (m_attr m) = Ok g1 /\ sub_diffeq g1 g = Ok gd end /\
      match m_goal m with
      | Some g0 => let* g1 := sub_set_attr g0 (m_attr m) in let* xg := Ok g in
                  let* xdg := sub_diffeq g1 xg in let* target := scale_goal m xg in
                  let* sp := d_set_attr (m_spring m) target in Ok (sp, Some g1, xdg)
      | None => let* sp := d_set_attr (m_spring m) (m_attr m) in Ok (sp, None, repeat 0 n) end = Ok (sp1, goal1, gd)).
    { destruct (m_goal m) as [g0|].
      - destruct (sub_set_attr g0 (m_attr m)) as [g1|]; [|discriminate]. cbn [bind] in E |- *.
        destruct (sub_diffeq g1 g) as [gd|] eqn:Eg; [|discriminate]. cbn [bind] in E |- *.
        destruct (scale_goal m g) as [tg|]; [|discriminate]. cbn [bind] in E |- *. destruct (d_set_attr _ tg) as [sp1|]; [|discriminate].
        exists sp1, (Some g1), gd. split; [exists g1; now split|reflexivity].
      - rewrite (spring_attr pf m W) by exact Ha. cbn [bind]. eexists _, _, _. split; reflexivity. }
    destruct E1 as (sp1 & goal1 & gd & Rg & E1). rewrite E1 in E. clear E1. cbn [bind] in E.
    destruct (put_ix (ix_goal m) gd _) as [x1|]; [|discriminate]. cbn [bind] in E.
    assert (E2 : exists sp2 cd, match m_damping m with None => cd = repeat 0 n | Some s => sub_diffeq s c = Ok cd end /\
      match m_damping m with
      | None => Ok (sp1, repeat 0 n)
      | Some ds => let* xdd := sub_diffeq ds c in Ok (d_set_damp sp1 (PVec c), xdd) end = Ok (sp2, cd)).
    { destruct (m_damping m) as [s|]; [|eexists _, _; split; reflexivity]. cbn [bind] in E |- *.
      destruct (sub_diffeq s c) as [cd|] eqn:Ec; [|discriminate]. eexists _, cd. split; reflexivity. }
    destruct E2 as (sp2 & cd & Rc & E2). rewrite E2 in E. clear E2. cbn [bind] in E.
    destruct (put_ix (ix_damping m) cd _) as [x2|]; [|discriminate]. cbn [bind] in E.
    destruct (get_ix (ix_spring m) x) as [xs|]; [|discriminate]. cbn [bind] in E. destruct (d_diffeq sp2 xs) as [xds|]; [|discriminate]. cbn [bind] in E.
    destruct (sub_diffeq (m_phase m) [p]) as [pd|] eqn:Ep; [|discriminate]. cbn [bind] in E.
    destruct (put_ix (ix_phase m) pd _) as [x3|]; [|discriminate]. cbn [bind] in E.
    destruct (sub_diffeq (m_gating m) [a]) as [ad|] eqn:Ea; [|discriminate].
    pose proof (sub_diffeq_length (m_phase m) [p] pd Hp (eq_sym Hpd) Ep) as Lp. rewrite Hpd in Lp.
    pose proof (sub_diffeq_length (m_gating m) [a] ad Hga (eq_sym Hgd) Ea) as La. rewrite Hgd in La.
    destruct pd as [|pd [|]]; try discriminate. destruct ad as [|ad [|]]; try discriminate.
    exists gd, pd, ad, cd. split; [exact Rg|]. split; [reflexivity|]. split; [reflexivity|exact Rc].
Qed.

(** the equation determines the rates *)
Lemma equation_iff x xd : length x = dim_x m -> ((exists m', m_diffeq pf m x = Ok (m', xd)) <-> equation pf m x xd).
Proof.
  intros Hx. destruct (split_state n x) as (sp & g & p & a & c & -> & LX); [unfold dim_x in Hx; lia|].
  destruct (diffeq_general sp g p a c LX) as [G1 G2]. set (x := asm sp g [p] [a] c) in *.
  assert (Ht : m_tau m <> 0) by apply W.
  pose proof W as (_ & _ & _ & _ & _ & _ & _ & _ & _ & _ & _ & HM & _).
  pose proof (nth_asm _ _ _ _ _ _ LX) as (M1 & M2 & M3 & M4 & M5 & M6). fold x in M1, M2, M3, M4, M5, M6. cbn [nth] in M4, M5.
  pose proof (goal_dim pf m W) as GD.
  split.
  - intros (m' & E). destruct (G2 _ _ E) as (gd & pd & ad & cd & Sr). destruct (G1 _ _ _ _ Sr) as (LD & m2 & E').
    assert (Exd : xd = asm (accs m sp (map (goal_now m x) (seq 0 n)) (map (damping_now m x) (seq 0 n)) (map (forcing_now pf m x) (seq 0 n))) gd [pd] [ad] cd) by congruence.
    subst xd. split; [exact (asm_length m GD _ _ _ _ _ LD)|]. exists gd, pd, ad, cd. split; [exact Sr|].
    pose proof (nth_asm _ _ _ _ _ _ LD) as (N1 & N2 & N3 & N4 & N5 & N6). cbn [nth] in N4, N5. split; [exact N4|]. split; [exact N5|].
    intros i Hi. rewrite (N1 i Hi), (N2 i Hi), (N3 i Hi), (N6 i Hi), (M1 i Hi), (M2 i Hi). destruct (nth_accs m sp (map (goal_now m x) (seq 0 n)) (map (damping_now m x) (seq 0 n)) (map (forcing_now pf m x) (seq 0 n)) i Hi) as [A1 A2].
    rewrite A1, A2. rewrite !nth_map_seq by trivial. specialize (HM i Hi). split; [field; trivial|]. split; [|now split].
    unfold accel. field. now split.
  - intros (Lxd & gd & pd & ad & cd & Sr & Q4 & Q5 & Q). destruct (G1 _ _ _ _ Sr) as (LD & m2 & E'). exists m2. rewrite E'. f_equal. f_equal.
    pose proof (nth_asm _ _ _ _ _ _ LD) as (N1 & N2 & N3 & N4 & N5 & N6). cbn [nth] in N4, N5.
    apply (nth_ext _ _ 0 0). { rewrite (asm_length m GD _ _ _ _ _ LD). now symmetry. }
    rewrite (asm_length m GD _ _ _ _ _ LD). unfold dim_x. intros j Hj.
    assert (Sol : forall t u v, t <> 0 -> t * u = v -> u = v / t) by (intros t u v T H; rewrite <- H; field; trivial).
    destruct (Nat.lt_ge_cases j n) as [C1|C1].
    { rewrite N1 by trivial. destruct (Q j C1) as (Q1 & _). rewrite (Sol _ _ _ Ht Q1), M2 by trivial.
      now rewrite (proj1 (nth_accs m sp _ _ _ j C1)). }
    destruct (Nat.lt_ge_cases j (2 * n)) as [C2|C2].
    { replace j with (n + (j - n))%nat by lia. set (i := (j - n)%nat). assert (Hi : (i < n)%nat) by (unfold i; lia). rewrite N2 by trivial.
      destruct (Q i Hi) as (_ & Q2 & _). rewrite (Sol _ _ _ Ht Q2), M1, M2 by trivial. rewrite (proj2 (nth_accs m sp _ _ _ i Hi)).
      rewrite !nth_map_seq by trivial. unfold accel. specialize (HM i Hi). field. now split. }
    destruct (Nat.lt_ge_cases j (3 * n)) as [C3|C3].
    { replace j with (2 * n + (j - 2 * n))%nat by lia. rewrite N3 by lia. destruct (Q (j - 2 * n)%nat ltac:(lia)) as (_ & _ & Q3 & _). now rewrite Q3. }
    destruct (Nat.eq_dec j (3 * n)) as [C4|C4]. { rewrite C4, N4. now symmetry. }
    destruct (Nat.eq_dec j (3 * n + 1)) as [C5|C5]. { rewrite C5, N5. now symmetry. }
    replace j with (3 * n + 2 + (j - (3 * n + 2)))%nat by lia. rewrite N6 by lia.
    destruct (Q (j - (3 * n + 2))%nat ltac:(lia)) as (_ & _ & _ & Q6). now rewrite Q6.
Qed.
End Eq.

(** *** DMPs whose equation is defined in all states *)
Lemma sub_diffeq_total s x : sub_ok s -> unrestricted s -> length x = sub_dim s -> exists xd, sub_diffeq s x = Ok xd.
Proof.
  intros (Ht & Hs) Hu Hx. unfold sub_dim in Hx. destruct s as [e|g|h|t]; cbn [sub_diffeq sub_init sub_tau] in *; [| |contradiction|].
  - destruct Hs as [Ha Hp]. rewrite e_diffeq_ok by trivial. eauto.
  - destruct Hs as (Hr & Hi & Hn). rewrite (s_diffeq_ok g) by trivial. eauto.
  - rewrite Hs in Hx. destruct x as [|v [|]]; try discriminate. unfold t_diffeq.
    destruct (Req_EM_T (t_tau t) 0) as [?|_]; [contradiction|]. destruct (t_down t); [destruct (Rlt_dec 0 v)|destruct (Rlt_dec v 1)]; eauto.
Qed.
Lemma diffeq_total pf m x : wf pf m -> length x = dim_x m -> unrestricted (m_phase m) -> unrestricted (m_gating m) ->
  (forall g, m_goal m = Some g -> unrestricted g) -> (forall s, m_damping m = Some s -> unrestricted s) ->
  exists m' xd, m_diffeq pf m x = Ok (m', xd).
Proof.
  intros W Hx U1 U2 U3 U4. destruct (split_state (m_dim m) x) as (sp & g & p & a & c & -> & LX); [unfold dim_x in Hx; lia|].
  destruct (diffeq_general pf m W sp g p a c LX) as [G1 _]. destruct (part_asm m sp g p a c LX) as [Pg Pc].
  pose proof LX as (_ & L2 & _ & _ & L5).
  assert (Ha : length (m_attr m) = m_dim m) by exact (proj1 (proj2 W)).
  assert (Hg : opt_ok (m_dim m) (m_goal m)) by apply W. assert (Hc : opt_ok (m_dim m) (m_damping m)) by apply W.
  assert (Hp : sub_ok (m_phase m)) by apply W. assert (Hpd : sub_dim (m_phase m) = 1%nat) by apply W.
  assert (Hga : sub_ok (m_gating m)) by apply W. assert (Hgd : sub_dim (m_gating m) = 1%nat) by apply W.
  pose proof (nth_asm _ _ _ _ _ _ LX) as (_ & _ & _ & N4 & N5 & _). cbn [nth] in N4, N5.
  destruct (sub_diffeq_total (m_phase m) [p] Hp U1 (eq_sym Hpd)) as [pd Ep]. destruct (sub_diffeq_total (m_gating m) [a] Hga U2 (eq_sym Hgd)) as [ad Ea].
  pose proof (sub_diffeq_length (m_phase m) [p] pd Hp (eq_sym Hpd) Ep) as Lp. rewrite Hpd in Lp. destruct pd as [|pd [|]]; try discriminate.
  pose proof (sub_diffeq_length (m_gating m) [a] ad Hga (eq_sym Hgd) Ea) as La. rewrite Hgd in La. destruct ad as [|ad [|]]; try discriminate.
  assert (G : exists gd, match m_goal m with None => gd = repeat 0 (m_dim m) | Some g0 => exists g1, sub_set_attr g0 (m_attr m) = Ok g1 /\ sub_diffeq g1 g = Ok gd end).
  { destruct (m_goal m) as [g0|]; [|eexists; reflexivity]. destruct Hg as [Hg1 Hg2]. destruct (set_attr_ok g0 (m_attr m) _ Hg1 Hg2 Ha) as (g1 & E1 & O & D).
    destruct (sub_diffeq_total g1 g O) as [gd Eg]; [|lia|exists gd, g1; now split].
    specialize (U3 g0 eq_refl). destruct g0; cbn [sub_set_attr] in E1; try (assert (g1 = _) by (symmetry; injection E1; intros H; exact H); subst g1; exact U3).
    destruct (Nat.eqb _ _); [|discriminate]. assert (E2 : g1 = SubE (Esys (e_tau s) (e_init s) (m_attr m) (e_alpha s))) by congruence. now subst g1. }
  destruct G as [gd Eg].
  assert (C : exists cd, match m_damping m with None => cd = repeat 0 (m_dim m) | Some s => sub_diffeq s c = Ok cd end).
  { destruct (m_damping m) as [s|]; [|eexists; reflexivity]. destruct Hc as [Hc1 Hc2]. apply sub_diffeq_total; [trivial|now apply U4|lia]. }
  destruct C as [cd Ec].
  destruct (G1 gd pd ad cd) as (_ & m' & E); [|eauto].
  unfold subsystem_rates. cbv zeta. rewrite Pg, Pc, N4, N5. now repeat split.
Qed.
