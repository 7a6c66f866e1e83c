From Coq Require Import String Ascii NArith.
From Verif Require Import Base BaseLemmas SessionModel SessionSpec SessionStrings SessionProofs.
Open Scope string_scope.

Lemma plain_no_slash s : plain_string s -> no_slash s.
Proof. unfold no_slash. induction s as [|c s IH]; cbn; [auto|]. intros [H1 H2]; auto. Qed.
Lemma plain_index_idx i : plain_index i -> plain_idx i.
Proof. destruct i; cbn; auto using plain_no_slash. Qed.
Lemma base_plain name iu is : plain_string name -> plain_index is -> plain_key (get_base_name name iu is).
Proof. intros. apply base_name_plain; auto using plain_no_slash, plain_index_idx. Qed.

Section S2.
Variable V : Type.
Variable category : V -> ext.
Variable load : ext -> V -> V.
Variable of_int : Z -> V.
Variable to_int : V -> option Z.
Notation tell := (tell category).
Notation ask := (ask load).
Notation step := (step category load).
Notation run := (run category load).
Notation new_session := (new_session category of_int).
Notation from_dir := (from_dir category load of_int to_int).

Definition as_file (kv : key * V) : string * ext * V := (path (fst kv), category (snd kv), snd kv).

Lemma latest_snoc k (log : list (key * V)) k1 v1 :
  latest k (log ++ [(k1, v1)])%list = if key_eqb k k1 then Some v1 else latest k log.
Proof. rewrite latest_app. cbn. destruct (key_eqb k k1); reflexivity. Qed.

Lemma ext_eqb_eq a b : ext_eqb a b = true <-> a = b.
Proof. destruct a, b; cbn; split; congruence. Qed.

(** all entries stored under the file name of k have the key k and the file type e *)
Definition uniform (k : key) (e : ext) (log : list (key * V)) : Prop :=
  forall k' v', In (k', v') log -> path k' = path k -> k' = k /\ category v' = e.

Lemma find_log k e log : uniform k e log ->
  (find_file (rev (map as_file log)) (path k) e = latest k log) /\
  (forall e', e' <> e -> find_file (rev (map as_file log)) (path k) e' = None).
Proof.
  induction log as [|[k1 v1] log IH] using rev_ind; intros Hu; [split; reflexivity|].
  rewrite map_app, rev_app_distr. cbn [map rev app as_file find_file fst snd].
  destruct IH as [I1 I2].
  { intros k' v' Hin. apply Hu. apply in_or_app. now left. }
  rewrite latest_snoc. destruct (String.eqb (path k) (path k1)) eqn:Ep.
  - apply String.eqb_eq in Ep. destruct (Hu k1 v1) as [-> Hc].
    { apply in_or_app. right. now left. } { now symmetry. }
    rewrite key_eqb_refl. rewrite Hc. split.
    + assert (ext_eqb e e = true) as -> by now apply ext_eqb_eq. reflexivity.
    + intros e' He. assert (ext_eqb e' e = false) as ->.
      { destruct (ext_eqb e' e) eqn:E; [|reflexivity]. apply ext_eqb_eq in E. contradiction. }
      cbn. auto.
  - cbn [andb]. assert (key_eqb k k1 = false) as ->; [|auto].
    apply key_eqb_neq. intros ->. now rewrite String.eqb_refl in Ep.
Qed.

Lemma load_log k log v fs dirs : uniform k (category v) log -> latest k log = Some v ->
  (forall e, find_file fs (path k) e = find_file (rev (map as_file log)) (path k) e) ->
  load_file load (Disk fs dirs) (path k) = Ok (load (category v) v).
Proof.
  intros Hu Hl Hf. destruct (find_log k _ log Hu) as [H1 H2]. unfold load_file. cbn [d_files].
  rewrite !Hf.
  destruct (category v) eqn:E.
  - rewrite H1, Hl. reflexivity.
  - rewrite (H2 Json), (H2 Csv), H1, Hl by discriminate. reflexivity.
  - rewrite (H2 Json), H1, Hl by discriminate. reflexivity.
Qed.

(** ** the directory contains the told objects *)
Definition DInv (log : list (key * V)) (ws : world V * sess) : Prop :=
  s_root (snd ws) = RDir /\ d_files (w_disk (fst ws)) = rev (map as_file log).

Lemma tell_dinv log w s v name iu is : DInv log (w, s) ->
  DInv (log ++ [(get_base_name name iu is, v)])%list (tell w s v name iu is).
Proof.
  intros [Hr Hf]. cbn [fst snd] in *. unfold DInv, SessionModel.tell. cbn [fst snd s_root w_disk]. rewrite Hr. split; [reflexivity|].
  cbn [not_none save d_files]. rewrite Hf, map_app, rev_app_distr. reflexivity.
Qed.
Lemma ask_disk w s name iu is : w_disk (fst (fst (ask w s name iu is))) = w_disk w.
Proof.
  unfold SessionModel.ask. destruct (cache_get _ _) as [a|]; [destruct (nth_error _ a); reflexivity|].
  destruct (negb _); [reflexivity|]. destruct (load_file _ _ _); reflexivity.
Qed.
Lemma step_dinv log ws o : DInv log ws -> DInv (log ++ told category load ws [o])%list (step ws o).
Proof.
  destruct ws as [w s]. intros H. destruct o as [v|a v|a name iu is|name iu is]; cbn [told SessionModel.step fst];
    rewrite ?app_nil_r.
  - exact H.
  - destruct (owned w a); exact H.
  - destruct (nth_error (w_heap w) a) as [v|]; [|rewrite app_nil_r; exact H].
    destruct (owned w a); [|rewrite app_nil_r; exact H]. now apply tell_dinv.
  - destruct H as [Hr Hf]. split; [now rewrite ask_root|]. now rewrite ask_disk.
Qed.
Lemma run_dinv log ws ops : DInv log ws -> DInv (log ++ told category load ws ops)%list (run ws ops).
Proof.
  revert log ws; induction ops as [|o ops IH]; intros log ws H.
  - cbn. now rewrite app_nil_r.
  - change (run ws (o :: ops)) with (run (step ws o) ops). rewrite told_cons.
    rewrite app_assoc. apply IH. now apply step_dinv.
Qed.
Lemma new_session_dinv w0 n kwargs : d_files (w_disk w0) = [] ->
  DInv (told_new of_int n kwargs) (new_session w0 n RDir kwargs).
Proof. intros H. apply new_session_ind; [intros; now apply tell_dinv|]. split; [reflexivity|exact H]. Qed.

(** ** plain keys *)
Definition PlainLog (log : list (key * V)) : Prop := forall k v, In (k, v) log -> plain_key k.
Lemma told_plain ws ops : Forall plain_op ops -> PlainLog (told category load ws ops).
Proof.
  revert ws; induction ops as [|o ops IH]; intros ws Hp k v; [intros []|].
  inversion Hp as [|? ? Ho Hp']; subst. rewrite told_cons. intros Hin. apply in_app_or in Hin.
  destruct Hin as [Hin|Hin]; [|now apply (IH (step ws o) Hp' k v)].
  destruct o as [x|a x|a name iu is|name iu is]; cbn [told] in Hin; try contradiction.
  destruct (nth_error _ a); [|contradiction]. destruct (owned _ a); [|contradiction].
  destruct Hin as [E|[]]. injection E as <- <-. apply base_plain; apply Ho.
Qed.
Lemma told_new_plain n kwargs : Forall (fun nv => plain_string (fst nv)) kwargs -> PlainLog (told_new of_int n kwargs).
Proof.
  intros Hp k v [E|Hin].
  - injection E as <- <-. cbn. repeat split; discriminate.
  - apply in_map_iff in Hin. destruct Hin as ([nm x] & E & Hin). injection E as <- <-.
    rewrite Forall_forall in Hp. apply plain_no_slash. exact (Hp _ Hin).
Qed.
Lemma plain_app l l' : PlainLog l -> PlainLog l' -> PlainLog (l ++ l')%list.
Proof. intros H H' k v Hin. apply in_app_or in Hin. destruct Hin; [eapply H|eapply H']; eauto. Qed.

Lemma latest_in k v (log : list (key * V)) : latest k log = Some v -> In (k, v) log.
Proof.
  induction log as [|[k1 v1] log IH] using rev_ind; [discriminate|]. rewrite latest_snoc.
  destruct (key_eqb k k1) eqn:E; intros H; apply in_or_app.
  - apply key_eqb_eq in E; subst. injection H as ->. right; now left.
  - left; auto.
Qed.

(** ** reopening *)
Definition n_key : key := KStr "n_samples_per_update".

Lemma asks_only_from (ws : world V * sess) ops : only_asks ops -> told category load ws ops = [].
Proof.
  revert ws; induction ops as [|o ops IH]; intros ws H; [reflexivity|]. inversion H; subst.
  destruct o; try contradiction. rewrite told_cons. cbn [told app]. now apply IH.
Qed.

Lemma ask_after_asks w s k v ops name iu is :
  s_root s = RDir -> k = get_base_name name iu is ->
  load_file load (w_disk w) (path k) = Ok v ->
  (forall a, cache_get (s_cache s) k = Some a -> nth_error (w_heap w) a = Some v) ->
  only_asks ops ->
  let ws := run (w, s) ops in returns (ask (fst ws) (snd ws) name iu is) v.
Proof.
  intros Hr Hk. revert w s Hr; induction ops as [|o ops IH]; intros w s Hr Hl Hc Ho.
  - cbn [SessionModel.run fold_left fst snd]. unfold SessionModel.ask. rewrite <- Hk.
    destruct (cache_get (s_cache s) k) as [a|] eqn:E.
    + rewrite (Hc a eq_refl). eexists _, _, _. split; [reflexivity|]. cbn. apply nth_error_snoc_eq.
    + rewrite Hr. cbn [truthy negb]. rewrite Hl. eexists _, _, _. split; [reflexivity|]. cbn. apply nth_error_snoc_eq.
  - inversion Ho as [|? ? Ha Ho']; subst. destruct o as [x|b x|b nm u i|nm u i]; try contradiction.
    change (run (w, s) (OAsk nm u i :: ops)) with (run (step (w, s) (OAsk nm u i)) ops).
    destruct (step (w, s) (OAsk nm u i)) as [w' s'] eqn:E.
    cbn [SessionModel.step] in E.
    assert (Er : s_root s' = RDir) by (rewrite <- Hr, <- (ask_root V load w s nm u i); now rewrite E).
    assert (Ed : w_disk w' = w_disk w) by (rewrite <- (ask_disk w s nm u i); now rewrite E).
    apply IH; auto; [now rewrite Ed|]. clear IH Ho'. intros a.
    unfold SessionModel.ask in E. destruct (cache_get (s_cache s) (get_base_name nm u i)) as [c|] eqn:Ec.
    + destruct (nth_error (w_heap w) c) as [vc|] eqn:Ev; injection E as <- <-.
      * cbn. intros Ha'. rewrite nth_error_snoc_lt; [auto|]. eapply nth_error_lt; eauto.
      * auto.
    + rewrite Hr in E. cbn [truthy negb] in E.
      destruct (load_file load (w_disk w) (path (get_base_name nm u i))) as [vl|] eqn:El; injection E as <- <-; [|auto].
      cbn. rewrite cache_get_set. destruct (key_eqb _ (get_base_name nm u i)) eqn:Ek.
      * apply key_eqb_eq in Ek. rewrite Ek in Hl. rewrite Hl in El. injection El as <-.
        intros E; injection E as <-. apply nth_error_snoc_eq.
      * intros Ha'. rewrite nth_error_snoc_lt; [auto|]. eapply nth_error_lt; eauto.
Qed.

Lemma from_dir_ask w w' s' k v ops name iu is :
  from_dir w = Ok (w', s') -> k = get_base_name name iu is -> path k <> path n_key ->
  load_file load (w_disk w) (path k) = Ok v -> only_asks ops ->
  let ws := run (w', s') ops in returns (ask (fst ws) (snd ws) name iu is) v.
Proof.
  intros Hf Hk Hn Hl Ho. unfold SessionModel.from_dir in Hf.
  destruct (find_file _ _ Txt) as [x|]; [|discriminate]. destruct (to_int (load Txt x)) as [m|]; [|discriminate].
  injection Hf as <- <-. apply (ask_after_asks _ _ k v); auto.
  - cbn [w_disk not_none]. unfold load_file, save. cbn [d_files find_file].
    assert (String.eqb (path k) "n_samples_per_update" = false) as ->.
    { destruct (String.eqb (path k) "n_samples_per_update") eqn:E; [|reflexivity].
      apply String.eqb_eq in E. contradiction. }
    exact Hl.
  - cbn [s_cache cache_set cache_get]. intros a.
    rewrite key_eqb_neq; [discriminate|]. intros ->. now apply Hn.
Qed.

(** C20 *)
Lemma reopen w0 n kwargs ops w' s' asks name iu is v :
  d_files (w_disk w0) = [] ->
  Forall (fun nv => plain_string (fst nv)) kwargs -> Forall plain_op ops ->
  plain_string name -> plain_index is ->
  let ws := run (new_session w0 n RDir kwargs) ops in
  let log := (told_new of_int n kwargs ++ told category load (new_session w0 n RDir kwargs) ops)%list in
  let k := get_base_name name iu is in
  k <> n_key -> latest k log = Some v ->
  (forall v', In (k, v') log -> category v' = category v) ->
  from_dir (fst ws) = Ok (w', s') -> only_asks asks ->
  let ws' := run (w', s') asks in returns (ask (fst ws') (snd ws') name iu is) (load (category v) v).
Proof.
  intros Hd Hkw Hop Hname His ws log k Hk Hl Hcat Hf Ho.
  assert (HD : DInv log ws) by (apply run_dinv; now apply new_session_dinv).
  assert (HP : PlainLog log) by (apply plain_app; [now apply told_new_plain|now apply told_plain]).
  assert (Pk : plain_key k) by now apply base_plain.
  eapply from_dir_ask; eauto.
  - intros E. apply Hk. apply plain_path_inj; auto. cbn. repeat split; discriminate.
  - destruct HD as [_ HD]. destruct (w_disk (fst ws)) as [fs dirs] eqn:Ew. cbn in HD.
    apply (load_log k log v); [|exact Hl|intros e; now rewrite HD].
    intros k' v' Hin Hp. assert (k' = k) as -> by (apply plain_path_inj; eauto). auto.
Qed.

Lemma reopen_ok w0 n kwargs ops :
  d_files (w_disk w0) = [] ->
  (forall m, category (of_int m) = Txt) -> (forall m, to_int (load Txt (of_int m)) = Some m) ->
  Forall (fun nv => plain_string (fst nv) /\ fst nv <> "n_samples_per_update") kwargs ->
  Forall plain_op ops ->
  Forall (fun o => ~ tells_key n_key o) ops ->
  let ws := run (new_session w0 n RDir kwargs) ops in
  exists w' s', from_dir (fst ws) = Ok (w', s') /\ s_n s' = n.
Proof.
  intros Hd Hc Ht Hkw Hop Hnt ws.
  set (log := (told_new of_int n kwargs ++ told category load (new_session w0 n RDir kwargs) ops)%list).
  assert (HD : DInv log ws) by (apply run_dinv; now apply new_session_dinv).
  assert (HP : PlainLog log).
  { apply plain_app; [apply told_new_plain|now apply told_plain].
    rewrite Forall_forall in *. intros x Hx. now apply Hkw. }
  assert (Hno : forall v, In (n_key, v) log -> v = of_int n).
  { intros v Hin. unfold log in Hin. apply in_app_or in Hin. destruct Hin as [[E|Hin]|Hin].
    - injection E as ->; reflexivity.
    - apply in_map_iff in Hin. destruct Hin as ([nm x] & E & Hin). injection E as E <-.
      rewrite Forall_forall in Hkw. exfalso. apply (proj2 (Hkw _ Hin)). exact E.
    - exfalso. clear - Hin Hnt. revert Hin. generalize (new_session w0 n RDir kwargs) as st.
      induction ops as [|o ops IH]; intros st Hin; [exact Hin|]. inversion Hnt; subst.
      rewrite told_cons in Hin. apply in_app_or in Hin. destruct Hin as [Hin|Hin]; [|now apply IH in Hin].
      destruct o as [y|a y|a name iu is|name iu is]; cbn [told] in Hin; try contradiction.
      destruct (nth_error _ a); [|contradiction]. destruct (owned _ a); [|contradiction].
      destruct Hin as [E|[]]. injection E as E _. apply H1. exact E. }
  assert (Hl : latest n_key log = Some (of_int n)).
  { destruct (latest n_key log) as [v|] eqn:E.
    - f_equal. apply Hno. now apply latest_in.
    - exfalso. unfold log in E. rewrite latest_app in E. destruct (latest n_key (told _ _ _ _)); [discriminate|].
      unfold told_new in E. cbn [latest] in E. destruct (latest n_key (map _ _)); [discriminate|].
      rewrite key_eqb_refl in E. discriminate. }
  unfold SessionModel.from_dir. destruct HD as [_ HD]. rewrite HD.
  destruct (find_log n_key Txt log) as [F _].
  { intros k' v' Hin Hp. assert (k' = n_key) as ->.
    { apply plain_path_inj; eauto. cbn. repeat split; discriminate. }
    split; [reflexivity|]. now rewrite (Hno _ Hin). }
  rewrite Hl in F. change (path n_key) with "n_samples_per_update" in F. rewrite F, Ht.
  eexists _, _. split; [reflexivity|]. reflexivity.
Qed.

(** ** C25: save_all *)
Definition keys (c : list (key * nat * option string)) : list key := map (fun e => fst (fst e)) c.
Lemma cache_set_keys c k a d : keys (cache_set c k a d) = keys c \/ (keys (cache_set c k a d) = (keys c ++ [k])%list /\ ~ In k (keys c)).
Proof.
  induction c as [|[[k1 a1] d1] c IH]; cbn [cache_set keys map fst].
  - right. split; [reflexivity|intros []].
  - destruct (key_eqb k k1) eqn:E; cbn [keys map fst]; [now left|]. fold (keys (cache_set c k a d)) (keys c).
    destruct IH as [->|[-> Hn]]; [now left|]. right. split; [reflexivity|].
    intros [->|H]; [rewrite key_eqb_refl in E; discriminate|contradiction].
Qed.
(** cached keys are distinct and plain *)
Definition CInv (ws : world V * sess) : Prop :=
  NoDup (keys (s_cache (snd ws))) /\ Forall plain_key (keys (s_cache (snd ws))).
Lemma cinv_set c k a d : NoDup (keys c) /\ Forall plain_key (keys c) -> plain_key k ->
  NoDup (keys (cache_set c k a d)) /\ Forall plain_key (keys (cache_set c k a d)).
Proof.
  intros [H1 H2] Hk. destruct (cache_set_keys c k a d) as [->|[-> Hn]]; [auto|]. split.
  - apply NoDup_rev in H1. rewrite <- (rev_involutive (keys c ++ [k])). apply NoDup_rev.
    rewrite rev_app_distr. cbn. constructor; [now rewrite <- in_rev|exact H1].
  - apply Forall_app; auto.
Qed.
Lemma step_cinv ws o : plain_op o -> CInv ws -> CInv (step ws o).
Proof.
  destruct ws as [w s]. intros Hp H. destruct o as [v|a v|a name iu is|name iu is]; cbn [SessionModel.step]; auto.
  - destruct (owned w a); exact H.
  - destruct (nth_error _ a); [|exact H]. destruct (owned w a); [|exact H].
    unfold CInv. cbn. apply cinv_set; [exact H|]. apply base_plain; apply Hp.
  - unfold SessionModel.ask. destruct (cache_get _ _) as [a|]; [destruct (nth_error _ a); exact H|].
    destruct (negb _); [exact H|]. destruct (load_file _ _ _); [|exact H].
    unfold CInv. cbn. apply cinv_set; [exact H|]. apply base_plain; apply Hp.
Qed.
Lemma run_cinv ws ops : Forall plain_op ops -> CInv ws -> CInv (run ws ops).
Proof. revert ws; induction ops as [|o ops IH]; intros ws Hp H; [exact H|]. inversion Hp; subst.
  change (run ws (o :: ops)) with (run (step ws o) ops). apply IH; auto. now apply step_cinv. Qed.
Lemma new_cinv w0 n r kwargs : Forall (fun nv => plain_string (fst nv)) kwargs -> CInv (new_session w0 n r kwargs).
Proof.
  intros Hp. unfold SessionModel.new_session.
  destruct (tell w0 (Sess n r [] None) (of_int n) "n_samples_per_update" INone INone) as [w1 s1] eqn:E1.
  assert (H : CInv (w1, s1)).
  { injection E1 as <- <-. unfold CInv. cbn [snd s_cache cache_set keys map fst]. split; [repeat constructor; intros []|].
    constructor; [|constructor]. cbn. repeat split; discriminate. }
  clear E1. revert H. generalize (w1, s1) as ws. induction kwargs as [|[nm v] kw IH]; intros ws H; [exact H|].
  inversion Hp; subst. cbn [fold_left fst snd]. apply IH; auto. destruct ws as [w s]. unfold CInv. cbn.
  apply cinv_set; [exact H|]. apply (base_plain nm INone INone); [exact H2|exact I].
Qed.

Definition cache_log (w : world V) (c : list (key * nat * option string)) : list (key * V) :=
  filter_some (fun e => match nth_error (w_heap w) (snd (fst e)) with
                        | Some v => Some (fst (fst e), v) | None => None end) c.

Lemma save_all_files w c d :
  d_files (fold_left (fun d (e : key * nat * option string) =>
    let '(k, a, dir) := e in
    match nth_error (w_heap w) a with
    | Some v => save category v d dir (path k)
    | None => d end) c d) = (rev (map as_file (cache_log w c)) ++ d_files d)%list.
Proof.
  revert d; induction c as [|[[k a] dir] c IH]; intros d; [reflexivity|].
  cbn [fold_left cache_log filter_some fst snd]. fold (cache_log w c). rewrite IH.
  destruct (nth_error (w_heap w) a) as [v|]; [|reflexivity].
  cbn [map rev]. rewrite <- app_assoc. reflexivity.
Qed.

Lemma cache_log_in w c k v : In (k, v) (cache_log w c) -> In k (keys c).
Proof.
  induction c as [|[[k1 a1] d1] c IH]; cbn [cache_log filter_some fst snd keys map]; [auto|].
  fold (cache_log w c) (keys c). destruct (nth_error (w_heap w) a1); [|right; auto].
  intros [E|H]; [injection E as -> _; now left|right; auto].
Qed.
Lemma cache_log_latest w c k a v : NoDup (keys c) ->
  cache_get c k = Some a -> nth_error (w_heap w) a = Some v ->
  latest k (cache_log w c) = Some v /\ forall v', In (k, v') (cache_log w c) -> v' = v.
Proof.
  intros Hnd Hg Hv. induction c as [|[[k1 a1] d1] c IH]; [discriminate|].
  inversion Hnd as [|? ? Hni Hnd']; subst. fold (keys c) in *. cbn [cache_get] in Hg. cbn [cache_log filter_some fst snd].
  fold (cache_log w c). destruct (key_eqb k k1) eqn:E.
  - injection Hg as ->. apply key_eqb_eq in E; subst k1. rewrite Hv.
    assert (Hno : forall v', ~ In (k, v') (cache_log w c)) by (intros v' Hin; apply Hni; eapply cache_log_in; eauto).
    cbn [latest]. split.
    + destruct (latest k (cache_log w c)) as [v'|] eqn:El; [|now rewrite key_eqb_refl].
      exfalso. apply (Hno v'). now apply latest_in.
    + intros v' [E|Hin]; [congruence|]. exfalso. now apply (Hno v').
  - destruct (IH Hnd' Hg) as [I1 I2]. destruct (nth_error (w_heap w) a1) as [v1|]; [|auto].
    cbn [latest]. rewrite I1. split; [reflexivity|]. intros v' [E'|Hin]; [|auto].
    injection E' as -> _. rewrite key_eqb_refl in E. discriminate.
Qed.

Lemma save_all_load w s k a v :
  CInv (w, s) -> plain_key k -> cache_get (s_cache s) k = Some a -> nth_error (w_heap w) a = Some v ->
  load_file load (save_all category w s empty_disk) (path k) = Ok (load (category v) v) /\
  forall e, find_file (d_files (save_all category w s empty_disk)) (path k) e =
            if ext_eqb e (category v) then Some v else None.
Proof.
  intros [Hnd Hp] Pk Hg Hv. cbn [snd] in *.
  destruct (cache_log_latest w (s_cache s) k a v Hnd Hg Hv) as [L1 L2].
  assert (HU : uniform k (category v) (cache_log w (s_cache s))).
  { intros k' v' Hin Hpath. assert (k' = k) as ->.
    { apply plain_path_inj; auto. rewrite Forall_forall in Hp. apply Hp. eapply cache_log_in; eauto. }
    split; [reflexivity|]. now rewrite (L2 _ Hin). }
  assert (HF : d_files (save_all category w s empty_disk) = rev (map as_file (cache_log w (s_cache s)))).
  { unfold save_all. rewrite save_all_files. cbn. now rewrite app_nil_r. }
  split.
  - destruct (save_all category w s empty_disk) as [fs dirs]. cbn in HF. subst fs.
    apply (load_log k (cache_log w (s_cache s)) v); auto.
  - intros e. rewrite HF. destruct (find_log k (category v) _ HU) as [F1 F2].
    destruct (ext_eqb e (category v)) eqn:E.
    + apply ext_eqb_eq in E; subst e. now rewrite F1.
    + apply F2. intros ->. assert (ext_eqb (category v) (category v) = true) by now apply ext_eqb_eq. congruence.
Qed.

Lemma save_all_reopen w0 n r kwargs ops heap ow w' s' asks name iu is v :
  wf_world w0 ->
  Forall (fun nv => plain_string (fst nv)) kwargs -> Forall plain_op ops ->
  plain_string name -> plain_index is ->
  let ws := run (new_session w0 n r kwargs) ops in
  let log := (told_new of_int n kwargs ++ told category load (new_session w0 n r kwargs) ops)%list in
  let k := get_base_name name iu is in
  k <> n_key -> latest k log = Some v ->
  from_dir (World heap (save_all category (fst ws) (snd ws) empty_disk) ow) = Ok (w', s') ->
  only_asks asks ->
  let ws' := run (w', s') asks in returns (ask (fst ws') (snd ws') name iu is) (load (category v) v).
Proof.
  intros Hw Hkw Hop Hname His ws log k Hk Hl Hf Ho.
  assert (HI : Inv V log ws) by (apply run_inv; now apply new_session_inv).
  assert (HC : CInv ws) by (apply run_cinv; auto; now apply new_cinv).
  destruct HI as [_ HI]. destruct (HI _ _ Hl) as (a & H1 & H2 & _).
  assert (Pk : plain_key k) by now apply base_plain.
  destruct (save_all_load (fst ws) (snd ws) k a v) as [L _]; auto.
  eapply from_dir_ask; eauto.
  intros E. apply Hk. apply plain_path_inj; auto. cbn. repeat split; discriminate.
Qed.

Lemma save_all_reopen_ok w0 n r kwargs ops heap ow v m :
  wf_world w0 ->
  Forall (fun nv => plain_string (fst nv)) kwargs -> Forall plain_op ops ->
  let ws := run (new_session w0 n r kwargs) ops in
  let log := (told_new of_int n kwargs ++ told category load (new_session w0 n r kwargs) ops)%list in
  latest n_key log = Some v -> category v = Txt -> to_int (load Txt v) = Some m ->
  exists w' s', from_dir (World heap (save_all category (fst ws) (snd ws) empty_disk) ow) = Ok (w', s') /\
    s_n s' = m.
Proof.
  intros Hw Hkw Hop ws log Hl Hc Hm.
  assert (HI : Inv V log ws) by (apply run_inv; now apply new_session_inv).
  assert (HC : CInv ws) by (apply run_cinv; auto; now apply new_cinv).
  destruct HI as [_ HI]. destruct (HI _ _ Hl) as (a & H1 & H2 & _).
  assert (Pk : plain_key n_key) by (cbn; repeat split; discriminate).
  destruct (save_all_load (fst ws) (snd ws) n_key a v) as [_ L]; auto.
  unfold SessionModel.from_dir. cbn [w_disk]. specialize (L Txt). rewrite Hc in L. cbn [ext_eqb] in L.
  change (path n_key) with "n_samples_per_update" in L. rewrite L, Hm.
  eexists _, _. split; reflexivity.
Qed.
End S2.
