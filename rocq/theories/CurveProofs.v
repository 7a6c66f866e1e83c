From Coq Require Import String Ascii NArith.
From Verif Require Import Base BaseLemmas SessionModel SessionSpec SessionStrings SessionProofs SessionProofs2 SessionProofs3 UpdatersModel CurveModel CurveSpec.
Open Scope R_scope.

Notation av := (avail val vload).

(** everything the curve reads, unchanged by asks *)
Definition same_view (st st' : state) : Prop :=
  (forall k v, av (fst st) (snd st) k v -> av (fst st') (snd st') k v) /\
  (forall name iu is, exists_ (fst st') (snd st') name iu is = exists_ (fst st) (snd st) name iu is) /\
  get_n_updates (fst st') (snd st') = get_n_updates (fst st) (snd st) /\
  s_n (snd st') = s_n (snd st).
Lemma same_view_refl st : same_view st st.
Proof. repeat split; auto. Qed.
Lemma same_view_trans a b c : same_view a b -> same_view b c -> same_view a c.
Proof.
  intros (A1 & A2 & A3 & A4) (B1 & B2 & B3 & B4). repeat split; auto; try congruence.
Qed.

Lemma ask_val_view st name iu is : same_view st (fst (ask_val st name iu is)).
Proof.
  destruct st as [w s]. unfold ask_val. cbn [fst snd].
  pose proof (ask_avail val vload w s name iu is) as H1.
  pose proof (ask_exists val vload w s name iu is) as H2.
  destruct (ask_n_updates val vload w s name iu is) as [H3 H4].
  destruct (ask vload w s name iu is) as [[w' s'] r]. cbn [fst snd] in *.
  repeat split; auto.
Qed.
Lemma ask_val_avail st name iu is v : av (fst st) (snd st) (get_base_name name iu is) v ->
  snd (ask_val st name iu is) = Ok v.
Proof.
  destruct st as [w s]. cbn [fst snd]. intros H. apply avail_returns in H. destruct H as (w' & s' & a & E & Ha).
  unfold ask_val. cbn [fst snd]. rewrite E. cbn. now rewrite Ha.
Qed.

Lemma ask_all_ok st name iu l vs :
  Forall2 (fun i v => av (fst st) (snd st) (get_base_name name iu i) v) l vs ->
  snd (ask_all st name iu l) = Ok vs /\ same_view st (fst (ask_all st name iu l)).
Proof.
  revert st vs; induction l as [|i l IH]; intros st vs H; inversion H as [|? v ? vs' Hv Hvs]; subst.
  - split; [reflexivity|apply same_view_refl].
  - cbn [ask_all]. pose proof (ask_val_avail st name iu i v Hv) as E. pose proof (ask_val_view st name iu i) as S.
    destruct (ask_val st name iu i) as [st1 r]. cbn [fst snd] in *. subst r.
    assert (Hvs' : Forall2 (fun i v => av (fst st1) (snd st1) (get_base_name name iu i) v) l vs').
    { clear - Hvs S. induction Hvs; constructor; auto. now apply S. }
    destruct (IH st1 vs' Hvs') as [E2 S2]. destruct (ask_all st1 name iu l) as [st2 r2]. cbn [fst snd] in *.
    subst r2. split; [reflexivity|]. eapply same_view_trans; eauto.
Qed.

Lemma shows_av st name iu is v : shows st name iu is v <-> av (fst st) (snd st) (get_base_name name iu is) v.
Proof. symmetry. apply avail_returns. Qed.
Lemma view_shows st st' name iu is v : same_view st st' -> shows st name iu is v -> shows st' name iu is v.
Proof. intros (H & _). rewrite !shows_av. apply H. Qed.

Lemma eval_costs_eval st i v :
  exists_ (fst st) (snd st) "cost" (IInt 0) (IStr "eval") = true ->
  shows st "cost" (IInt i) (IStr "eval") v ->
  snd (get_eval_costs st i) = Ok (v, IZR i * IZR (s_n (snd st))) /\ same_view st (fst (get_eval_costs st i)).
Proof.
  intros He Hs. apply shows_av in Hs. unfold get_eval_costs. rewrite He.
  pose proof (ask_val_avail _ _ _ _ _ Hs) as E. pose proof (ask_val_view st "cost" (IInt i) (IStr "eval")) as S.
  destruct (ask_val st "cost" (IInt i) (IStr "eval")) as [st1 r]. cbn [fst snd] in *. subst r. split; [reflexivity|exact S].
Qed.

Lemma sample_costs_one st i l a :
  exists_ (fst st) (snd st) "costs" (IInt i) INone = true ->
  shows st "costs" (IInt i) INone (VCosts l) -> np_array_costs l = Ok a ->
  snd (get_sample_costs st i) = Ok a /\ same_view st (fst (get_sample_costs st i)).
Proof.
  intros He Hs Ha. apply shows_av in Hs. unfold get_sample_costs. rewrite He.
  pose proof (ask_val_avail _ _ _ _ _ Hs) as E. pose proof (ask_val_view st "costs" (IInt i) INone) as S.
  destruct (ask_val st "costs" (IInt i) INone) as [st1 r]. cbn [fst snd] in *. subst r. split; [exact Ha|exact S].
Qed.

Lemma sample_costs_each st i cs vs a :
  exists_ (fst st) (snd st) "costs" (IInt i) INone = false ->
  Forall2 (fun j v => shows st "costs" (IInt i) j v) (zseq (s_n (snd st))) vs ->
  mapM as_cost vs = Ok cs -> np_array_costs cs = Ok a ->
  snd (get_sample_costs st i) = Ok a /\ same_view st (fst (get_sample_costs st i)).
Proof.
  intros He Hs Hm Ha. unfold get_sample_costs. rewrite He.
  destruct (ask_all_ok st "costs" (IInt i) (zseq (s_n (snd st))) vs) as [E S].
  { clear - Hs. induction Hs; constructor; auto. now apply shows_av. }
  destruct (ask_all st "costs" (IInt i) (zseq (s_n (snd st)))) as [st1 r]. cbn [fst snd] in *. subst r.
  cbn. rewrite Hm. cbn. split; [exact Ha|exact S].
Qed.

(** the cost row of update i as the session's contents determine it *)
Inductive row_spec (st : state) (i : Z) : list R -> Prop :=
  | row_eval v row :
      exists_ (fst st) (snd st) "cost" (IInt 0) (IStr "eval") = true ->
      shows st "cost" (IInt i) (IStr "eval") v -> as_row v = Ok row ->
      row_spec st i (IZR i * IZR (s_n (snd st)) :: row)
  | row_costs l a m row :
      exists_ (fst st) (snd st) "cost" (IInt 0) (IStr "eval") = false ->
      exists_ (fst st) (snd st) "costs" (IInt i) INone = true ->
      shows st "costs" (IInt i) INone (VCosts l) ->
      np_array_costs l = Ok a -> mean0 a = Ok m -> as_row m = Ok row ->
      row_spec st i ((IZR i + 1 / 2) * IZR (s_n (snd st)) :: row)
  | row_each vs cs a m row :
      exists_ (fst st) (snd st) "cost" (IInt 0) (IStr "eval") = false ->
      exists_ (fst st) (snd st) "costs" (IInt i) INone = false ->
      Forall2 (fun j v => shows st "costs" (IInt i) j v) (zseq (s_n (snd st))) vs ->
      mapM as_cost vs = Ok cs -> np_array_costs cs = Ok a -> mean0 a = Ok m -> as_row m = Ok row ->
      row_spec st i ((IZR i + 1 / 2) * IZR (s_n (snd st)) :: row).

Lemma row_spec_view st st' i r : same_view st st' -> row_spec st i r -> row_spec st' i r.
Proof.
  intros S H. assert (S' := S). destruct S' as (_ & S2 & _ & S4). rewrite <- ?S4.
  destruct H; rewrite <- S4.
  - eapply row_eval; rewrite ?S2; eauto. eapply view_shows; eauto.
  - eapply row_costs; rewrite ?S2; eauto. eapply view_shows; eauto.
  - eapply row_each; rewrite ?S2, ?S4; eauto. clear - H1 S. induction H1; constructor; auto. eapply view_shows; eauto.
Qed.

Lemma curve_row_ok st i r : row_spec st i r ->
  (let* vn := snd (get_eval_costs st i) in let* row := as_row (fst vn) in Ok (snd vn :: row)) = Ok r /\
  same_view st (fst (get_eval_costs st i)).
Proof.
  destruct 1 as [v row He Hs Hr|l a m row He Hc Hs Ha Hm Hr|vs cs a m row He Hc Hs Hcs Ha Hm Hr].
  - destruct (eval_costs_eval st i v He Hs) as [-> S]. split; [|exact S]. cbn. rewrite Hr. reflexivity.
  - destruct (sample_costs_one st i l a Hc Hs Ha) as [E S]. unfold get_eval_costs. rewrite He.
    destruct (get_sample_costs st i) as [st1 r1]. cbn [fst snd] in *. subst r1. cbn. rewrite Hm. cbn. rewrite Hr. split; [reflexivity|exact S].
  - destruct (sample_costs_each st i cs vs a Hc Hs Hcs Ha) as [E S]. unfold get_eval_costs. rewrite He.
    destruct (get_sample_costs st i) as [st1 r1]. cbn [fst snd] in *. subst r1. cbn. rewrite Hm. cbn. rewrite Hr. split; [reflexivity|exact S].
Qed.

Lemma curve_rows_ok st is rows : Forall2 (row_spec st) is rows ->
  snd (curve_rows st is) = Ok rows /\ same_view st (fst (curve_rows st is)).
Proof.
  revert st rows; induction is as [|i is IH]; intros st rows H; inversion H as [|? r ? rows' Hr Hrs]; subst.
  - split; [reflexivity|apply same_view_refl].
  - cbn [curve_rows]. destruct (curve_row_ok st i r Hr) as [E S].
    destruct (get_eval_costs st i) as [st1 q]. cbn [fst snd] in *. rewrite E.
    assert (Hrs' : Forall2 (row_spec st1) is rows').
    { clear - Hrs S. induction Hrs; constructor; auto. eapply row_spec_view; eauto. }
    destruct (IH st1 rows' Hrs') as [E2 S2]. destruct (curve_rows st1 is) as [st2 r2]. cbn [fst snd] in *. subst r2.
    split; [reflexivity|]. eapply same_view_trans; eauto.
Qed.

Lemma components_row v row : components v row -> as_row v = Ok row.
Proof. destruct 1; reflexivity. Qed.

Lemma scalars_map rs : scalars (map CScalar rs) = Some rs.
Proof. induction rs as [|r rs IH]; [reflexivity|]. cbn. unfold scalars in IH. now rewrite IH. Qed.
Lemma vectors_map vs : vectors (map CVec vs) = Some vs.
Proof. induction vs as [|r rs IH]; [reflexivity|]. cbn. unfold vectors in IH. now rewrite IH. Qed.
Lemma same_length_ok m rows : Forall (fun r => length r = m) rows -> same_length rows = true.
Proof.
  intros H. destruct rows as [|x rows]; [reflexivity|]. inversion H; subst. cbn. apply forallb_forall.
  intros y Hy. apply Nat.eqb_eq. rewrite Forall_forall in H3. now apply H3.
Qed.

Lemma means_eq m rows row : column_means m rows row ->
  row = map (fun j => mean (map (fun r => nth j r 0) rows)) (seq 0 m).
Proof.
  intros (Hne & Hl & H). apply nth_ext with (d := 0) (d' := 0).
  - now rewrite map_length, seq_length.
  - intros j Hj. rewrite Hl in Hj. rewrite H by exact Hj.
    rewrite (nth_indep _ 0 (mean (map (fun r => nth m r 0) rows))) by now rewrite map_length, seq_length.
    rewrite (map_nth (fun j => mean (map (fun r => nth j r 0) rows))). rewrite seq_nth by exact Hj.
    unfold mean. now rewrite map_length.
Qed.

Lemma mean0_scalars rs row : column_means 1 (map (fun r => [r]) rs) row ->
  exists v, mean0 (VArr1 rs) = Ok v /\ as_row v = Ok row.
Proof.
  intros H. rewrite (means_eq _ _ _ H). destruct H as (Hne & _). destruct rs as [|r rs]; [contradiction|].
  eexists; split; [reflexivity|]. cbn [as_row seq map]. f_equal. f_equal. rewrite map_map. f_equal.
  cbn [map nth]. f_equal. symmetry. rewrite <- (map_id rs) at 2. now apply map_ext.
Qed.
Lemma mean0_vectors m rows row : Forall (fun r => length r = m) rows -> column_means m rows row ->
  exists v, mean0 (VArr2 rows) = Ok v /\ as_row v = Ok row.
Proof.
  intros Hf H. rewrite (means_eq _ _ _ H). destruct H as (Hne & _). destruct rows as [|x rows]; [contradiction|].
  inversion Hf; subst. eexists; split; reflexivity.
Qed.

Lemma table_mean l m rows row : table l m rows -> column_means m rows row ->
  exists a v, np_array_costs l = Ok a /\ mean0 a = Ok v /\ as_row v = Ok row.
Proof.
  intros [rs|m' rows' Hne Hf] Hm.
  - destruct (mean0_scalars rs row Hm) as (v & H1 & H2). exists (VArr1 rs), v. unfold np_array_costs. rewrite scalars_map. auto.
  - destruct (mean0_vectors m' rows' row Hf Hm) as (v & H1 & H2). exists (VArr2 rows'), v. unfold np_array_costs.
    rewrite vectors_map, (same_length_ok m') by exact Hf. destruct rows'; [contradiction|]. auto.
Qed.

Lemma mapM_as_cost_scal vs rows :
  Forall2 (fun v r => (v = VFloat (nth 0 r 0) \/ v = VArr0 (nth 0 r 0)) /\ length r = 1%nat) vs rows ->
  exists rs, mapM as_cost vs = Ok (map CScalar rs) /\ rows = map (fun r => [r]) rs.
Proof.
  induction 1 as [|v r vs rows [Hv Hr] H (rs & E & ->)]; [exists []; split; reflexivity|].
  destruct r as [|x [|? ?]]; try discriminate. exists (x :: rs). cbn [nth] in Hv. destruct Hv as [-> | ->]; cbn; rewrite E; split; reflexivity.
Qed.
Lemma mapM_as_cost_vec rows : mapM as_cost (map VArr1 rows) = Ok (map CVec rows).
Proof. induction rows as [|r rows IH]; [reflexivity|]. cbn. rewrite IH. reflexivity. Qed.

Lemma zseq_forall2 (P : idx -> val -> Prop) n vs : length vs = Z.to_nat n ->
  (forall j v, nth_error vs j = Some v -> P (IInt (Z.of_nat j)) v) -> Forall2 P (zseq n) vs.
Proof.
  unfold zseq. intros <-. assert (G : forall k, (forall j v, nth_error vs j = Some v -> P (IInt (Z.of_nat (k + j))) v) ->
    Forall2 P (map (fun j => IInt (Z.of_nat j)) (seq k (length vs))) vs).
  { induction vs as [|v vs IH]; intros k H; [constructor|]. cbn [length seq map]. constructor.
    - rewrite <- (Nat.add_0_r k). now apply H.
    - apply IH. intros j x E. replace (S k + j)%nat with (k + S j)%nat by lia. now apply H. }
  intros H. apply (G 0%nat). exact H.
Qed.

Lemma curve_row_spec st i r : curve_row st i r -> row_spec st i r.
Proof.
  destruct 1 as [v row He Hs Hc|l m rows row He Hc Hs Ht Hm|vs m rows row He Hc Hl Hs Hk Hm].
  - eapply row_eval; eauto using components_row.
  - destruct (table_mean l m rows row Ht Hm) as (a & v & H1 & H2 & H3). eapply row_costs; eauto.
  - assert (F := zseq_forall2 (fun j v => shows st "costs" (IInt i) j v) _ vs Hl Hs).
    destruct Hk as [[-> Hk]|[-> Hk]].
    + destruct (mapM_as_cost_scal vs rows Hk) as (rs & E & ->).
      destruct (table_mean _ 1 _ row (table_numbers rs) Hm) as (a & v & H1 & H2 & H3). eapply row_each; eauto.
    + assert (Hne : rows <> []) by apply Hm.
      destruct (table_mean _ m _ row (table_vectors m rows Hne Hk) Hm) as (a & v & H1 & H2 & H3).
      eapply row_each; eauto. apply mapM_as_cost_vec.
Qed.

Lemma learning_curve_ok st n rows ls :
  get_n_updates (fst st) (snd st) = Ok (Some n) ->
  Forall2 (row_spec st) (zrange n) rows -> labels_spec st ls ->
  snd (get_learning_curve st) = Ok (rows, ls).
Proof.
  intros Hn Hr Hl. unfold get_learning_curve. rewrite Hn.
  destruct (curve_rows_ok st _ rows Hr) as [E S]. destruct (curve_rows st (zrange n)) as [st1 r]. cbn [fst snd] in *. subst r.
  assert (S' := S). destruct S' as (_ & S2 & _). rewrite !S2.
  assert (L : forall name, shows st name INone INone (VObj ls) ->
    snd (let '(st2, r2) := ask_val st1 name INone INone in
         (st2, let* v := r2 in match v with VObj ls => Ok (rows, ls) | _ => Err Unmodelled end)) = Ok (rows, ls)).
  { intros name H. apply (view_shows _ st1) in H; [|exact S]. apply shows_av in H.
    pose proof (ask_val_avail _ _ _ _ _ H) as A. destruct (ask_val st1 name INone INone) as [st2 r2].
    cbn [snd] in *. subst r2. reflexivity. }
  destruct Hl as [[H1 H2]|[(H1 & H2 & H3)|(H1 & H2 & ->)]]; rewrite H1; [|rewrite H2|rewrite H2].
  - now apply L. - now apply L. - reflexivity.
Qed.

Lemma cost_ratio_ok st n v0 v1 a b :
  exists_ (fst st) (snd st) "cost" (IInt 0) (IStr "eval") = true ->
  get_n_updates (fst st) (snd st) = Ok (Some n) ->
  shows st "cost" (IInt 0) (IStr "eval") v0 -> shows st "cost" (IInt (n - 1)) (IStr "eval") v1 ->
  index0 v1 = Ok a -> index0 v0 = Ok b -> b <> 0 ->
  snd (get_cost_ratio st) = Ok (a / b).
Proof.
  intros He Hn H0 H1 Ha Hb Hb0. unfold get_cost_ratio.
  destruct (eval_costs_eval st 0 v0 He H0) as [E S]. destruct (get_eval_costs st 0) as [st1 r1]. cbn [fst snd] in *. subst r1.
  assert (S' := S). destruct S' as (_ & S2 & S3 & S4). rewrite S3, Hn.
  destruct (eval_costs_eval st1 (n - 1) v1) as [E1 _]; [now rewrite S2|eapply view_shows; eauto|].
  destruct (get_eval_costs st1 (n - 1)) as [st2 r2]. cbn [fst snd] in *. subst r2. cbn. rewrite Ha. cbn. rewrite Hb. cbn.
  destruct (Req_EM_T b 0); [contradiction|reflexivity].
Qed.

Lemma closed_loop_updates i rs : forall j, In j (updates_of (closed_loop i rs)) <->
  (Z.of_nat i <= j < Z.of_nat (i + length rs))%Z.
Proof.
  revert i; induction rs as [|r rs IH]; intros i j; cbn [closed_loop].
  - cbn. rewrite Nat.add_0_r. split; [intros []|lia].
  - unfold updates_of. cbn [calls_of app filter_some update_of]. fold (updates_of (closed_loop (S i) rs)).
    cbn [In length]. rewrite IH. rewrite Nat.add_succ_r. cbn [Nat.add].
    split; [intros [<-|[<-|H]]; lia|]. intros H. destruct (Z.eq_dec (Z.of_nat i) j); [now left|].
    right; right. lia.
Qed.

Lemma closed_loop_last i rs l : rs <> [] ->
  fold_left (fun acc (c : call val) => match c with CUpdate i _ _ _ _ _ => Some i | _ => acc end) (closed_loop i rs) l
  = Some (Z.of_nat (i + length rs - 1)).
Proof.
  revert i l; induction rs as [|r rs IH]; intros i l H; [contradiction|]. cbn [closed_loop calls_of app fold_left].
  destruct rs as [|r' rs].
  - cbn. do 2 f_equal. lia.
  - rewrite IH by discriminate. cbn [length]. do 2 f_equal. lia.
Qed.

Lemma closed_loop_n_updates w0 n r kwargs rs :
  rs <> [] -> r <> REmpty -> (r = RDir -> d_dirs (w_disk w0) = [] /\ (Z.of_nat (length rs) <= 100000)%Z) ->
  let st := do_calls vcategory (new_session vcategory VInt w0 n r kwargs) (closed_loop 0 rs) in
  get_n_updates (fst st) (snd st) = Ok (Some (Z.of_nat (length rs) - 1)%Z).
Proof.
  intros Hne Hr Hd st. destruct r; [|contradiction|].
  - unfold st. pose proof (n_updates_mem val vcategory VInt w0 n kwargs (closed_loop 0 rs)) as M. cbv zeta in M. rewrite M.
    unfold last_update. rewrite (closed_loop_last 0 rs None Hne). do 2 f_equal. destruct rs; [contradiction|]. cbn [length]. lia.
  - destruct (Hd eq_refl) as [H1 H2]. assert (1 <= length rs)%nat by (destruct rs; [contradiction|cbn; lia]).
    apply n_updates_dir; auto.
    + apply Forall_forall. intros j Hj. apply closed_loop_updates in Hj. unfold small. lia.
    + apply closed_loop_updates. lia.
    + intros j Hj. apply closed_loop_updates in Hj. lia.
Qed.

(** ** what a closed-loop run leaves in the session *)
Lemma upd_key_inj n n' i j : no_leading_digit n -> no_leading_digit n' ->
  get_base_name n (IInt (Z.of_nat i)) INone = get_base_name n' (IInt (Z.of_nat j)) INone -> n = n' /\ i = j.
Proof.
  intros Hn Hn' E. apply base_name_inj in E; auto.
  - destruct E as (-> & E2 & _). injection E2 as E2. split; [reflexivity|lia].
  - right. eexists; split; [|reflexivity]. lia.
  - right. eexists; split; [|reflexivity]. lia.
  - now left.
  - now left.
Qed.

(** names told by the loop *)
Definition loop_name (n : string) : Prop :=
  In n ["eval_cost"; "eval_sample"; "distribution"; "samples"; "costs"; "weights"; "distribution_new"]%string.
Lemma loop_name_nd n : loop_name n -> no_leading_digit n.
Proof. unfold loop_name. cbn. intros H. repeat (destruct H as [<-|H]; [reflexivity|]). destruct H. Qed.

Definition field (r : rec) (name : string) : option val :=
  (if name =? "eval_cost" then Some (r_cost r) else if name =? "eval_sample" then Some (r_sample r)
   else if name =? "distribution" then Some (r_dist r) else if name =? "samples" then Some (r_samples r)
   else if name =? "costs" then Some (r_costs r) else if name =? "weights" then Some (r_weights r)
   else if name =? "distribution_new" then r_new r else None)%string.

Lemma calls_log_in i r k v : In (k, v) (flat_map call_log (calls_of i r)) ->
  exists n, loop_name n /\ k = get_base_name n (IInt (Z.of_nat i)) INone.
Proof.
  unfold calls_of. cbn [flat_map call_log app]. unfold loop_name.
  intros H. repeat (destruct H as [E|H]; [injection E as <- _; eexists; split; [|reflexivity]; cbn; tauto|]).
  destruct (r_new r); cbn in H; [|contradiction]. destruct H as [E|[]].
  injection E as <- _; eexists; split; [|reflexivity]; cbn; tauto.
Qed.

Lemma latest_none k (log : list (key * val)) : (forall v, ~ In (k, v) log) -> latest k log = None.
Proof. intros H. destruct (latest k log) eqn:E; [|reflexivity]. apply latest_in in E. now apply H in E. Qed.

Lemma closed_loop_log_ge i rs n j v : loop_name n -> (j < i)%nat ->
  ~ In (get_base_name n (IInt (Z.of_nat j)) INone, v) (flat_map call_log (closed_loop i rs)).
Proof.
  revert i; induction rs as [|r rs IH]; intros i Hn Hj H; [exact H|].
  cbn [closed_loop] in H. rewrite flat_map_app in H. apply in_app_or in H. destruct H as [H|H].
  - apply calls_log_in in H. destruct H as (n' & Hn' & E).
    apply upd_key_inj in E; auto using loop_name_nd. lia.
  - apply (IH (S i)) in H; auto.
Qed.

Lemma latest_app_r k (l l' : list (key * val)) v : latest k l' = Some v -> latest k (l ++ l') = Some v.
Proof. intros H. rewrite latest_app, H. reflexivity. Qed.

Lemma latest_cons_hit k v (log : list (key * val)) : (forall v', ~ In (k, v') log) -> latest k ((k, v) :: log) = Some v.
Proof. intros H. cbn. rewrite latest_none by exact H. now rewrite key_eqb_refl. Qed.
Lemma latest_cons_miss k k' v (log : list (key * val)) : k <> k' -> latest k ((k', v) :: log) = latest k log.
Proof. intros H. cbn. destruct (latest k log); [reflexivity|]. now rewrite key_eqb_neq. Qed.

Lemma latest_calls i r n v : loop_name n -> field r n = Some v ->
  latest (get_base_name n (IInt (Z.of_nat i)) INone) (flat_map call_log (calls_of i r)) = Some v.
Proof.
  intros Hn Hf. unfold calls_of. cbn [flat_map call_log]. rewrite app_nil_r. cbn [app].
  assert (Hit : forall v log, (forall v', ~ In (get_base_name n (IInt (Z.of_nat i)) INone, v') log) ->
     latest (get_base_name n (IInt (Z.of_nat i)) INone) ((get_base_name n (IInt (Z.of_nat i)) INone, v) :: log) = Some v)
    by (intros; now apply latest_cons_hit).
  assert (Ne : forall n', loop_name n' -> n <> n' ->
     get_base_name n (IInt (Z.of_nat i)) INone <> get_base_name n' (IInt (Z.of_nat i)) INone).
  { intros n' H1 H2 E. apply upd_key_inj in E; auto using loop_name_nd. destruct E; contradiction. }
  assert (L : forall n', In n' ["eval_cost"; "eval_sample"; "distribution"; "samples"; "costs"; "weights"; "distribution_new"]%string -> loop_name n') by auto.
  set (K := fun n => get_base_name n (IInt (Z.of_nat i)) INone) in *. fold (K n) in Hit. fold (K n) in Ne. fold (K n).
  change (get_base_name "eval_cost" (IInt (Z.of_nat i)) INone) with (K "eval_cost"%string).
  change (get_base_name "eval_sample" (IInt (Z.of_nat i)) INone) with (K "eval_sample"%string).
  change (get_base_name "distribution" (IInt (Z.of_nat i)) INone) with (K "distribution"%string).
  change (get_base_name "samples" (IInt (Z.of_nat i)) INone) with (K "samples"%string).
  change (get_base_name "costs" (IInt (Z.of_nat i)) INone) with (K "costs"%string).
  change (get_base_name "weights" (IInt (Z.of_nat i)) INone) with (K "weights"%string).
  change (get_base_name "distribution_new" (IInt (Z.of_nat i)) INone) with (K "distribution_new"%string).
  assert (Ne' : forall n', loop_name n' -> n <> n' -> K n <> K n') by exact Ne. clear Ne. clearbody K.
  assert (Last : n <> "distribution_new"%string -> forall v', ~ In (K n, v') match r_new r with Some d' => [(K "distribution_new"%string, d')] | None => [] end).
  { intros Hd v' H. destruct (r_new r); [|contradiction]. destruct H as [E|[]]. injection E as E _. symmetry in E. revert E.
    apply (Ne' "distribution_new"%string); auto. apply L. cbn. tauto. }
  assert (Nn : forall n', loop_name n' -> n <> n' -> forall (v v' : val), (K n', v) <> (K n, v')).
  { intros n' H1 H2 x y E. injection E as E _. symmetry in E. now apply (Ne' n' H1 H2). }
  cbn in Hn. do 7 (destruct Hn as [<-|Hn];
    [ cbn in Hf;
      repeat (rewrite latest_cons_miss by (apply Ne'; [apply L; cbn; tauto|discriminate]));
      first
        [ injection Hf as <-; apply Hit; intros v' H;
          repeat (destruct H as [H|H]; [revert H; apply Nn; [apply L; cbn; tauto|discriminate]|]);
          revert H; apply Last; discriminate
        | rewrite Hf; apply Hit; intros v' [] ]
    | ]).
  destruct Hn.
Qed.

Lemma closed_loop_latest i rs j r n v : nth_error rs j = Some r -> loop_name n -> field r n = Some v ->
  latest (get_base_name n (IInt (Z.of_nat (i + j))) INone) (flat_map call_log (closed_loop i rs)) = Some v.
Proof.
  revert i j; induction rs as [|r0 rs IH]; intros i j Hj Hn Hf; [destruct j; discriminate|].
  cbn [closed_loop]. rewrite flat_map_app. destruct j as [|j].
  - injection Hj as ->. rewrite Nat.add_0_r. rewrite latest_app.
    rewrite latest_none; [now apply latest_calls|]. intros v'. apply closed_loop_log_ge; [exact Hn|lia].
  - apply latest_app_r. rewrite Nat.add_succ_r. apply (IH (S i) j); auto.
Qed.

Lemma closed_loop_shows w0 n r kwargs rs j rc name v :
  nth_error rs j = Some rc -> loop_name name -> field rc name = Some v ->
  let st := do_calls vcategory (new_session vcategory VInt w0 n r kwargs) (closed_loop 0 rs) in
  shows st name (IInt (Z.of_nat j)) INone v /\
  exists_ (fst st) (snd st) name (IInt (Z.of_nat j)) INone = true.
Proof.
  intros Hj Hn Hf st.
  assert (HL : LInv val (told_new VInt n kwargs ++ flat_map call_log (closed_loop 0 rs))%list st).
  { apply do_calls_linv. apply new_session_linv. }
  assert (E : latest (get_base_name name (IInt (Z.of_nat j)) INone)
     (told_new VInt n kwargs ++ flat_map call_log (closed_loop 0 rs))%list = Some v).
  { apply latest_app_r. exact (closed_loop_latest 0 rs j rc name v Hj Hn Hf). }
  split; [apply shows_av; eapply linv_avail; eauto|]. eapply linv_exists; eauto.
Qed.

Lemma do_calls_sn (ws : state) cs : s_n (snd (do_calls vcategory ws cs)) = s_n (snd ws).
Proof.
  revert ws; induction cs as [|c cs IH]; intros ws; [reflexivity|]. cbn [do_calls fold_left].
  change (fold_left (do_call vcategory) cs (do_call vcategory ws c)) with (do_calls vcategory (do_call vcategory ws c) cs).
  rewrite IH. destruct ws as [w s], c as [v name iu is|i x y|i d sm co we [dn|]]; reflexivity.
Qed.
Lemma new_session_sn w0 n r kwargs : s_n (snd (new_session vcategory VInt w0 n r kwargs)) = n.
Proof.
  unfold new_session.
  assert (G : forall ws : state, s_n (snd (fold_left (fun ws nv => tell vcategory (fst ws) (snd ws) (snd nv) (fst nv) INone INone) kwargs ws)) = s_n (snd ws)).
  { induction kwargs as [|[nm v] kw IH]; intros ws; [reflexivity|]. cbn [fold_left]. rewrite IH. reflexivity. }
  destruct (tell vcategory w0 _ (VInt n) "n_samples_per_update" INone INone) as [w1 s1] eqn:E.
  rewrite G. injection E as _ <-. reflexivity.
Qed.

(** the learning curve after a closed-loop run: the rows of all updates but the last *)
Lemma closed_loop_curve w0 n r kwargs rs rows ls :
  rs <> [] -> r <> REmpty -> (r = RDir -> d_dirs (w_disk w0) = [] /\ (Z.of_nat (length rs) <= 100000)%Z) ->
  let st := do_calls vcategory (new_session vcategory VInt w0 n r kwargs) (closed_loop 0 rs) in
  Forall2 (fun rc row => as_row (r_cost rc) = Ok row) rs rows ->
  labels_spec st ls ->
  snd (get_learning_curve st) =
  Ok (map (fun j => INR j * IZR n :: nth j rows []) (seq 0 (length rs - 1)), ls).
Proof.
  intros Hne Hr Hd st Hrows Hls.
  apply learning_curve_ok with (n := (Z.of_nat (length rs) - 1)%Z); auto.
  { now apply closed_loop_n_updates. }
  unfold zrange. replace (Z.to_nat (Z.of_nat (length rs) - 1)) with (length rs - 1)%nat by lia.
  assert (Hst : s_n (snd st) = n) by (unfold st; rewrite do_calls_sn; apply new_session_sn).
  assert (E0 : exists_ (fst st) (snd st) "cost" (IInt 0) (IStr "eval") = true).
  { destruct rs as [|r0 rs']; [contradiction|].
    change (exists_ (fst st) (snd st) "cost" (IInt 0) (IStr "eval")) with (exists_ (fst st) (snd st) "eval_cost" (IInt (Z.of_nat 0)) INone).
    apply (closed_loop_shows w0 n r kwargs (r0 :: rs') 0 r0 "eval_cost" (r_cost r0)); [reflexivity|left; reflexivity|reflexivity]. }
  assert (G : forall js, (forall j, In j js -> (j < length rs)%nat) ->
    Forall2 (row_spec st) (map Z.of_nat js) (map (fun j => INR j * IZR n :: nth j rows []) js)).
  { induction js as [|j js IH]; intros Hj; [constructor|]. cbn [map]. constructor.
    - assert (Hjl : (j < length rs)%nat) by (apply Hj; now left).
      destruct (nth_error rs j) as [rc|] eqn:Erc; [|apply nth_error_None in Erc; lia].
      rewrite INR_IZR_INZ. rewrite <- Hst at 1. apply (row_eval st (Z.of_nat j) (r_cost rc)); [exact E0| |].
      + exact (proj1 (closed_loop_shows w0 n r kwargs rs j rc "eval_cost" (r_cost rc) Erc (or_introl eq_refl) eq_refl)).
      + clear - Hrows Erc. revert j Erc. induction Hrows as [|a b rs rows H1 H2 IH]; intros j E; [destruct j; discriminate|].
        destruct j as [|j]; cbn in *; [injection E as <-; exact H1|auto].
    - apply IH. intros j' Hj'. apply Hj. now right. }
  apply G. intros j Hj. apply in_seq in Hj. lia.
Qed.

Lemma learning_curve_spec st n rows ls :
  get_n_updates (fst st) (snd st) = Ok (Some n) ->
  Forall2 (curve_row st) (zrange n) rows -> labels_spec st ls ->
  snd (get_learning_curve st) = Ok (rows, ls).
Proof.
  intros Hn Hr. apply (learning_curve_ok st n); [exact Hn|]. clear - Hr. induction Hr; constructor; auto using curve_row_spec.
Qed.
Lemma closed_loop_curve_spec w0 n r kwargs rs rows ls :
  rs <> [] -> r <> REmpty -> (r = RDir -> d_dirs (w_disk w0) = [] /\ (Z.of_nat (length rs) <= 100000)%Z) ->
  let st := do_calls vcategory (new_session vcategory VInt w0 n r kwargs) (closed_loop 0 rs) in
  Forall2 (fun rc row => components (r_cost rc) row) rs rows ->
  labels_spec st ls ->
  snd (get_learning_curve st) =
  Ok (map (fun j => INR j * IZR n :: nth j rows []) (seq 0 (length rs - 1)), ls).
Proof.
  intros H1 H2 H3 st Hr Hl. apply closed_loop_curve; auto. clear - Hr. induction Hr; constructor; auto using components_row.
Qed.
