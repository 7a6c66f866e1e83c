(** Proofs about exploration: the files of all samples. *)
From Coq Require Import String.
From Verif Require Import Base BaseLemmas SessionModel SessionStrings DynModel DynSpec DynProofs ParamModel ParamSpec ParamProofs FaModel TrajModel DmpModel DmpSpec DmpProofs DmpProofs2
  DmpProofs8 CppModel CppSpec CppProofs CppProofs2 CppProofs5 ExploreSpec ExploreModel ExploreProofs.
Open Scope string_scope.
Open Scope R_scope.

Lemma sapp_cancel s : forall a b : string, (a ++ s = b ++ s)%string -> a = b.
Proof.
  assert (Z : forall a, (a ++ s)%string = s -> a = "").
  { intros a E. assert (L : String.length (a ++ s) = String.length s) by congruence. rewrite app_length_s in L. destruct a; [reflexivity|cbn in L; lia]. }
  induction a as [|c a IH]; intros [|d b] E; [reflexivity| | |].
  - symmetry in E. apply (Z (String d b)) in E. discriminate.
  - apply (Z (String c a)) in E. discriminate.
  - cbn in E. injection E as -> E. f_equal. now apply IH.
Qed.
Lemma sample_name_inj i j : sample_name i = sample_name j -> i = j.
Proof. intros E. unfold sample_name in E. apply sapp_cancel, fmt_inj in E; lia. Qed.

(** the loop sets each sample on the DMP of the start *)
Lemma tune_ok kinds m : selectable_dmp (pdmp_of m) ->
  (match m_goal m with Some (SubE e) => length (e_init e) = m_dim m | _ => True end) ->
  forall samples m1 i, reach m m1 -> Forall (fun v => dmp_size (pdmp_of m) = Ok (length v)) samples ->
  exists files, tune kinds m1 i samples = Ok files /\ length files = length samples /\
    forall k, (k < length samples)%nat -> exists m', m_set_params m (nth k samples []) = (m', Ok tt) /\
      nth_error files k = Some (sample_name (i + k), dmp_json kinds m').
Proof.
  intros Hsel Hgoal. induction samples as [|v rest IH]; intros m1 i R H; cbn [tune].
  { exists []. repeat split; cbn; intros; lia. }
  inversion H as [|? ? Hv Hr]; subst.
  pose proof (reach_set m Hsel Hgoal m1 v R Hv) as Es.
  destruct (set_params_ok m Hsel Hgoal v Hv) as (fs & rs & _ & m' & Em & _). rewrite Es, Em.
  destruct (IH m' (S i)) as (files & E & L & F); [|exact Hr|].
  { right. exists v. rewrite Em. now split. }
  rewrite E. cbn [bind]. eexists. split; [reflexivity|]. split; [cbn; now rewrite L|].
  intros [|k] Hk; cbn [nth nth_error].
  - exists m'. split; [exact Em|]. now rewrite Nat.add_0_r.
  - destruct (F k) as (m2 & E2 & N2); [cbn in Hk; lia|]. exists m2. split; [exact E2|]. rewrite N2. do 3 f_equal. lia.
Qed.
Lemma files_lookup {V} (g : nat -> string) : (forall i j, g i = g j -> i = j) -> forall (files : list (string * V)) b,
  (forall k, (k < length files)%nat -> exists j, nth_error files k = Some (g (b + k)%nat, j)) ->
  forall k j, nth_error files k = Some (g (b + k)%nat, j) -> lookup files (g (b + k)%nat) = Some j.
Proof.
  intros Hg. induction files as [|[nm c] files IH]; intros b H k j E; [now destruct k|].
  destruct (H 0%nat) as (j0 & E0); [cbn; lia|]. cbn in E0. injection E0 as -> ->. cbn [lookup].
  destruct k as [|k]; cbn [nth_error] in E.
  - injection E as E. rewrite Nat.add_0_r. now rewrite String.eqb_refl, E.
  - destruct (String.eqb_spec (g (b + S k)%nat) (g (b + 0)%nat)) as [X|_]; [apply Hg in X; lia|].
    replace (b + S k)%nat with (S b + k)%nat in * by lia. apply IH; [|exact E].
    intros k' Hk'. destruct (H (S k')) as (j' & E'); [cbn; lia|]. cbn in E'. exists j'. now replace (S b + k')%nat with (b + S k')%nat by lia.
Qed.

(** ** selecting parameters *)
Definition params_of (k : fa_kind) : list string :=
  match k with KRbfn => ["weights"] | KLwr => ["slopes"; "offsets"] | KOther => [] end.
Lemma params_movement k : incl (params_of k) movement_names.
Proof. destruct k; intros x H; cbn in *; intuition. Qed.
Lemma column_array f n name : is_column (f_model f) n name -> array_param f name.
Proof. intros (l & E & L). exists (Arr [n; 1%nat] l). split; [exact E|]. split; [discriminate|]. cbn. lia. Qed.
Lemma mem_in' x l : mem x l = true <-> In x l.
Proof.
  unfold mem. rewrite existsb_exists. split; [intros (y & Hy & E); apply String.eqb_eq in E; now subst|intros H; exists x; split; [exact H|apply String.eqb_refl]].
Qed.
Lemma select_good ex kinds n m ns : good ex kinds n m ->
  (forall fs i f, m_fas m = Some fs -> nth_error fs i = Some f -> is_trained f = true -> (i < m_dim m)%nat) ->
  NoDup (name_list ns) -> (forall i x, (i < n)%nat -> In x (name_list ns) -> x = "goal" \/ In x (params_of (kinds i))) ->
  good ex kinds n (m_select m ns) /\ selectable_dmp (pdmp_of (m_select m ns)) /\ explorable (m_select m ns).
Proof.
  intros (W & Po & U & Ht & Hn) Hext Hnd Hns. subst n.
  set (rest := if mem "goal" (name_list ns) then filter (fun x => negb (String.eqb x "goal")) (name_list ns) else name_list ns).
  set (sl := fun f => fa_select f (NList rest)).
  assert (Hrest : forall i x, (i < m_dim m)%nat -> In x rest -> In x (params_of (kinds i))).
  { intros i x Hi Hx. unfold rest in Hx. destruct (mem "goal" (name_list ns)) eqn:Mg.
    - apply filter_In in Hx. destruct Hx as [Hx Hb]. destruct (Hns i x Hi Hx) as [->|]; [cbn in Hb; discriminate|trivial].
    - destruct (Hns i x Hi Hx) as [->|]; [apply mem_in' in Hx; congruence|trivial]. }
  assert (Hnr : NoDup rest) by (unfold rest; destruct (mem _ _); [now apply NoDup_filter|trivial]).
  assert (Em : m_select m ns = upd_sel (upd_fas m (option_map (map sl) (m_fas m))) (if mem "goal" (name_list ns) then ["goal"] else m_sel m)) by reflexivity.
  pose proof Po as (Ha & Hr & Hd & Hy & Hdim & Htau & Hdk & Ems & Hp & Hga & Ham & fs & Ef & Lf & Hf).
  rewrite Em, Ef. cbn [option_map].
  assert (Back : forall i f', nth_error (map sl fs) i = Some f' -> exists f, nth_error fs i = Some f /\ f' = sl f).
  { intros i f' H. rewrite nth_error_map in H. destruct (nth_error fs i) as [f|]; [|discriminate]. cbn in H. injection H as <-. now exists f. }
  assert (Port : forall i f, nth_error (map sl fs) i = Some f -> (i < m_dim m)%nat -> fa_portable (kinds i) f).
  { intros i f' H Hlt. destruct (Back i f' H) as (f & Hi & ->). exact (Hf i f Hi Hlt). }
  assert (Sel : forall i f, nth_error fs i = Some f -> is_trained f = true -> selectable (sl f) /\ incl rest movement_names /\ (i < m_dim m)%nat).
  { intros i f Hi T. assert (Hlt : (i < m_dim m)%nat) by (eapply Hext; eauto). split; [|split; [|exact Hlt]].
    - split; [exact T|]. exists rest. split; [reflexivity|]. split; [exact Hnr|]. apply Forall_forall. intros x Hx.
      specialize (Hrest i x Hlt Hx). destruct (Hf i f Hi Hlt) as (_ & nb & _ & Hc). change (array_param (sl f) x) with (array_param f x).
      apply (column_array f nb). destruct (kinds i); cbn in Hrest; [| |contradiction]; rewrite Forall_forall in Hc; apply Hc; cbn; intuition.
    - intros x Hx. apply (params_movement (kinds i)). now apply Hrest. }
  split; [|split].
  - split; [|split; [|split; [exact U|split; [exact Ht|reflexivity]]]].
    + destruct W as (W1 & W2 & W3 & W4 & W5 & W6 & W7 & W8 & W9 & W10 & W11 & W12 & W13 & W14 & W15 & W16 & W17 & W18 & W19).
      unfold wf. repeat (split; [assumption|]). unfold fas_ok in *. rewrite Ef in W19. cbn [upd_sel upd_fas m_fas m_dim].
      destruct W19 as [Wl Wp]. split; [right; rewrite map_length; lia|]. intros i f' H T ph. destruct (Back i f' H) as (f & Hi & ->). exact (Wp i f Hi T ph).
    + unfold portable. cbn [upd_sel upd_fas m_tau m_attr m_dim m_y0 m_req m_scaling m_amps m_spring m_goal m_damping m_phase m_gating m_fas].
      do 11 (split; [assumption|]). exists (map sl fs). split; [reflexivity|]. split; [rewrite map_length; lia|exact Port].
  - split; [|exact Ha]. unfold fas_of, pdmp_of. cbn [p_fas upd_sel upd_fas m_fas]. apply Forall_forall. intros f' Hin T. apply in_map_iff in Hin.
    destruct Hin as (f & <- & Hin). apply In_nth_error in Hin. destruct Hin as (i & Hi). apply (Sel i f Hi T).
  - intros fs0 E0 i f' Hi T. cbn [upd_sel upd_fas m_fas] in E0. injection E0 as <-. destruct (Back i f' Hi) as (f & Hi' & ->).
    destruct (Sel i f Hi' T) as (_ & Hinc & Hlt). split; [exact Hlt|exact Hinc].
Qed.

(** ** training leaves the remaining approximators alone *)
Lemma set_tau_fas m t m' : set_tau m t = Ok m' -> m_fas m' = m_fas m /\ m_dim m' = m_dim m.
Proof. unfold set_tau. destruct (Req_EM_T (m_tau m) 0); [discriminate|]. intros H. injection H as <-. now split. Qed.
Lemma set_y0_fas m y m' : set_y0 m y = Ok m' -> m_fas m' = m_fas m /\ m_dim m' = m_dim m.
Proof.
  unfold set_y0. destruct (Nat.eqb _ _); [|discriminate]. destruct (d_set_y_init _ _) as [sp|]; [|discriminate]. cbn [bind].
  match goal with |- (let* g := ?b in _) = _ -> _ => destruct b as [g|] end; [|discriminate]. cbn [bind]. intros H. injection H as <-. now split.
Qed.
Lemma set_yattr_fas m y m' : set_yattr m y = Ok m' -> m_fas m' = m_fas m /\ m_dim m' = m_dim m.
Proof.
  unfold set_yattr. destruct (Nat.eqb _ _); [|discriminate]. destruct (goal_attr m y) as [g|]; [|discriminate]. cbn [bind]. intros H. injection H as <-. now split.
Qed.
Lemma train_extras pf tf m t m' fas : m_train pf tf m t = Ok m' -> m_fas m = Some fas -> Forall (fun f => is_trained f = false) fas ->
  forall fs i f, m_fas m' = Some fs -> nth_error fs i = Some f -> is_trained f = true -> (i < m_dim m')%nat.
Proof.
  intros E Ef Hu. unfold m_train in E.
  destruct (last_res (tj_ts t)) as [tau|]; [|discriminate]. cbn [bind] in E.
  destruct (set_tau m tau) as [m1|] eqn:E1; [|discriminate]. cbn [bind] in E. apply set_tau_fas in E1.
  destruct (nth_res (mrows (tj_ys t)) 0) as [y0|]; [|discriminate]. cbn [bind] in E.
  destruct (set_y0 m1 y0) as [m2|] eqn:E2; [|discriminate]. cbn [bind] in E. apply set_y0_fas in E2.
  destruct (last_res (mrows (tj_ys t))) as [yN|]; [|discriminate]. cbn [bind] in E.
  destruct (set_yattr m2 yN) as [m3|] eqn:E3; [|discriminate]. cbn [bind] in E. apply set_yattr_fas in E3.
  destruct (get_range_per_dim t) as [am|]; [|discriminate]. cbn [bind] in E. cbv zeta in E.
  set (M := upd_amps m3 (Some am)) in E.
  assert (EM : m_fas M = Some fas) by (unfold M; cbn [upd_amps m_fas]; destruct E1, E2, E3; congruence). rewrite EM in E.
  destruct (targets pf M t) as [pt|]; [|discriminate]. cbn [bind] in E.
  match type of E with context [mapM ?g ?l] => destruct (mapM g l) as [tr|] eqn:Et end; [|discriminate]. cbn [bind] in E. injection E as <-.
  intros fs i f Efs Hi T. cbn [upd_ts upd_fas m_fas m_dim] in *. injection Efs as <-.
  apply mapM_ok_length in Et. rewrite seq_length in Et.
  destruct (Nat.lt_ge_cases i (m_dim M)) as [Hlt|Hge]; [exact Hlt|]. exfalso.
  rewrite nth_error_app2 in Hi by lia. apply nth_error_In in Hi. rewrite Forall_forall in Hu.
  rewrite (Hu f) in T; [discriminate|]. rewrite <- (firstn_skipn (m_dim M) fas). apply in_or_app. now right.
Qed.
Lemma new_dmp_fas ty tau y0 yN fas kw m : new_dmp ty tau y0 yN fas kw = Ok m -> m_fas m = fas.
Proof.
  unfold new_dmp. cbv zeta. 
  match goal with |- (let* g := ?b in _) = _ -> _ => destruct b as [[[[? ?] ?] ?]|] end; [|discriminate]. cbn [bind].
  intros H. injection H as <-. reflexivity.
Qed.
Lemma from_traj_extras pf tf ty t fas kw m : from_traj pf tf ty t (Some fas) kw = Ok m -> Forall (fun f => is_trained f = false) fas ->
  forall fs i f, m_fas m = Some fs -> nth_error fs i = Some f -> is_trained f = true -> (i < m_dim m)%nat.
Proof.
  intros E Hu. unfold from_traj in E.
  destruct (last_res (tj_ts t)); [|discriminate]. cbn [bind] in E.
  destruct (nth_res (mrows (tj_ys t)) 0); [|discriminate]. cbn [bind] in E.
  destruct (last_res (mrows (tj_ys t))); [|discriminate]. cbn [bind] in E.
  destruct (new_dmp _ _ _ _ _ _) as [m0|] eqn:E0; [|discriminate]. cbn [bind] in E. apply new_dmp_fas in E0.
  eapply train_extras; eauto.
Qed.
