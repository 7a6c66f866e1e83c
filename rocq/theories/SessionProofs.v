From Coq Require Import String Ascii NArith.
From Verif Require Import Base BaseLemmas SessionModel SessionSpec SessionStrings.
Open Scope string_scope.

Section S.
Variable V : Type.
Variable category : V -> ext.
Variable load : ext -> V -> V.
Variable of_int : Z -> V.
Variable to_int : V -> option Z.
Notation tell := (tell category).
Notation ask := (ask load).
Notation step := (step category load).
Notation run := (run category load).
Notation new_session := (new_session category of_int).

(** ** cache *)
Lemma cache_get_set c k a d k' :
  cache_get (cache_set c k a d) k' = if key_eqb k' k then Some a else cache_get c k'.
Proof.
  induction c as [|[[k1 a1] d1] c IH]; cbn [cache_set cache_get].
  - reflexivity.
  - destruct (key_eqb k k1) eqn:E1; cbn [cache_get].
    + apply key_eqb_eq in E1; subst k1. destruct (key_eqb k' k); reflexivity.
    + rewrite IH. destruct (key_eqb k' k1) eqn:E2; [|reflexivity].
      apply key_eqb_eq in E2; subst k1. destruct (key_eqb k' k) eqn:E3; [|reflexivity].
      apply key_eqb_eq in E3; subst k'. rewrite key_eqb_refl in E1. discriminate.
Qed.

Lemma latest_app k (l l' : list (key * V)) :
  latest k (l ++ l')%list = match latest k l' with Some v => Some v | None => latest k l end.
Proof.
  induction l as [|[k1 v1] l IH]; cbn; [destruct (latest k l'); reflexivity|].
  rewrite IH. destruct (latest k l'); [reflexivity|]. reflexivity.
Qed.

(** ** The simulation invariant: every told key is cached at a private cell holding the latest value *)
Definition Inv (log : list (key * V)) (ws : world V * sess) : Prop :=
  wf_world (fst ws) /\
  (forall k v, latest k log = Some v ->
     exists a, cache_get (s_cache (snd ws)) k = Some a /\
               nth_error (w_heap (fst ws)) a = Some v /\ ~ In a (w_owned (fst ws))).
(** in a session without directory, nothing else is cached *)
Definition Mem (log : list (key * V)) (ws : world V * sess) : Prop :=
  s_root (snd ws) = RNone /\
  forall k, latest k log = None -> cache_get (s_cache (snd ws)) k = None.

Lemma owned_In (w : world V) a : owned w a = true <-> In a (w_owned w).
Proof.
  unfold owned. rewrite existsb_exists. split.
  - intros (x & Hx & E). apply Nat.eqb_eq in E. now subst.
  - intros H. exists a. split; [exact H|apply Nat.eqb_refl].
Qed.

Lemma nth_error_snoc_lt {A} (l : list A) x a : (a < length l)%nat -> nth_error (l ++ [x])%list a = nth_error l a.
Proof. intros. now apply nth_error_app1. Qed.
Lemma nth_error_snoc_eq {A} (l : list A) x : nth_error (l ++ [x])%list (length l) = Some x.
Proof. rewrite nth_error_app2 by lia. now rewrite Nat.sub_diag. Qed.
Lemma nth_error_lt {A} (l : list A) a x : nth_error l a = Some x -> (a < length l)%nat.
Proof. intros H. apply nth_error_Some. congruence. Qed.

Lemma tell_inv log w s v name iu is :
  Inv log (w, s) -> Inv (log ++ [(get_base_name name iu is, v)])%list (tell w s v name iu is).
Proof.
  intros (Hw & Hk). unfold Inv, SessionModel.tell, wf_world in *. cbn [fst snd w_heap w_owned s_cache s_root] in *.
  set (k0 := get_base_name name iu is). split.
  - intros a Ha. rewrite app_length. cbn. specialize (Hw a Ha). lia.
  - intros k v' H. rewrite latest_app in H. cbn [latest] in H. rewrite cache_get_set.
    destruct (key_eqb k k0) eqn:E.
    + injection H as <-. exists (length (w_heap w)). split; [reflexivity|]. split; [apply nth_error_snoc_eq|].
      intros Hin. specialize (Hw _ Hin). lia.
    + destruct (Hk k v' H) as (a & H1 & H2 & H3). exists a. repeat split; auto.
      rewrite nth_error_snoc_lt; auto. eapply nth_error_lt; eauto.
Qed.
Lemma tell_mem log w s v name iu is :
  Mem log (w, s) -> Mem (log ++ [(get_base_name name iu is, v)])%list (tell w s v name iu is).
Proof.
  intros (Hr & Hn). unfold Mem, SessionModel.tell. cbn [snd s_root s_cache] in *. split; [exact Hr|].
  intros k H. rewrite latest_app in H. cbn [latest] in H. rewrite cache_get_set.
  destruct (key_eqb k (get_base_name name iu is)); [discriminate|auto].
Qed.

Lemma tell_root w s v name iu is : s_root (snd (tell w s v name iu is)) = s_root s.
Proof. reflexivity. Qed.

Lemma ask_inv log w s name iu is :
  Inv log (w, s) -> Inv log (fst (ask w s name iu is)).
Proof.
  intros (Hw & Hk). unfold SessionModel.ask. set (k0 := get_base_name name iu is).
  cbn [fst snd] in Hw, Hk.
  assert (Hext : forall v s', (s_cache s' = s_cache s \/
        (cache_get (s_cache s) k0 = None /\ exists d, s_cache s' = cache_set (s_cache s) k0 (length (w_heap w)) d)) ->
        Inv log (World (w_heap w ++ [v]) (w_disk w) (length (w_heap w) :: w_owned w), s')).
  { intros v s' Hc. unfold Inv, wf_world in *. cbn [fst snd w_heap w_owned] in *. split.
    - intros a [<-|Ha]; rewrite app_length; cbn; [lia|]. specialize (Hw a Ha). lia.
    - intros k v' H. destruct (Hk k v' H) as (a & H1 & H2 & H3).
      assert (Ha := nth_error_lt _ _ _ H2). exists a. split; [|split].
      + destruct Hc as [->|(Hc & d & ->)]; [exact H1|]. rewrite cache_get_set.
        destruct (key_eqb k k0) eqn:E; [|exact H1]. apply key_eqb_eq in E; subst k. congruence.
      + now rewrite nth_error_snoc_lt.
      + intros [E|E]; [lia|auto]. }
  destruct (cache_get (s_cache s) k0) as [a|] eqn:E.
  - destruct (nth_error (w_heap w) a) as [v|] eqn:E'; cbn [fst]; [apply Hext; auto|split; auto].
  - destruct (negb (truthy (s_root s))) eqn:Et; cbn [fst]; [split; auto|].
    destruct (load_file load (w_disk w) (path k0)) as [v|e]; cbn [fst]; [|split; auto].
    apply Hext. right. split; [reflexivity|].
    exists (update_dir iu). reflexivity.
Qed.

Lemma ask_mem log w s name iu is : Mem log (w, s) -> Mem log (fst (ask w s name iu is)).
Proof.
  intros (Hr & Hn). cbn [snd] in *. unfold SessionModel.ask. rewrite Hr. cbn [truthy negb].
  destruct (cache_get _ _) as [a|]; [destruct (nth_error _ a)|]; split; auto.
Qed.

Lemma set_nth_length {A} (l : list A) i v : length (set_nth l i v) = length l.
Proof. revert i; induction l as [|x l IH]; intros [|i]; cbn; auto. Qed.
Lemma nth_error_set_nth_neq {A} (l : list A) i j v : i <> j -> nth_error (set_nth l i v) j = nth_error l j.
Proof. revert i j; induction l as [|x l IH]; intros [|i] [|j] H; cbn; auto; lia. Qed.

Lemma step_inv log ws o : Inv log ws -> Inv (log ++ told category load ws [o])%list (step ws o).
Proof.
  destruct ws as [w s]. intros H. destruct o as [v|a v|a name iu is|name iu is]; cbn [told SessionModel.step fst];
    rewrite ?app_nil_r.
  - destruct H as (Hw & Hk). unfold Inv, wf_world in *. cbn [fst snd w_heap w_owned] in *. split.
    + intros a [<-|Ha]; rewrite app_length; cbn; [lia|]. specialize (Hw a Ha). lia.
    + intros k v' E. destruct (Hk k v' E) as (a & H1 & H2 & H3). assert (Ha := nth_error_lt _ _ _ H2).
      exists a. repeat split; auto; [now rewrite nth_error_snoc_lt|]. intros [E'|E']; [lia|auto].
  - destruct (owned w a) eqn:Ho; [|exact H].
    destruct H as (Hw & Hk). unfold Inv, wf_world in *. cbn [fst snd w_heap w_owned] in *. split.
    + intros b Hb. rewrite set_nth_length. auto.
    + intros k v' E. destruct (Hk k v' E) as (b & H1 & H2 & H3). exists b. repeat split; auto.
      rewrite nth_error_set_nth_neq; auto. intros ->. apply H3. now apply owned_In.
  - destruct (nth_error (w_heap w) a) as [v|]; [|rewrite app_nil_r; exact H].
    destruct (owned w a); [|rewrite app_nil_r; exact H]. now apply tell_inv.
  - now apply ask_inv.
Qed.

Lemma step_mem log ws o : Mem log ws -> Mem (log ++ told category load ws [o])%list (step ws o).
Proof.
  destruct ws as [w s]. intros H. destruct o as [v|a v|a name iu is|name iu is]; cbn [told SessionModel.step fst];
    rewrite ?app_nil_r.
  - exact H.
  - destruct (owned w a); exact H.
  - destruct (nth_error (w_heap w) a) as [v|]; [|rewrite app_nil_r; exact H].
    destruct (owned w a); [|rewrite app_nil_r; exact H]. now apply tell_mem.
  - now apply ask_mem.
Qed.

Lemma told_cons ws o ops : told category load ws (o :: ops) =
      (told category load ws [o] ++ told category load (step ws o) ops)%list.
Proof. cbn [told]. now rewrite app_nil_r. Qed.

Lemma run_mem log ws ops : Mem log ws -> Mem (log ++ told category load ws ops)%list (run ws ops).
Proof.
  revert log ws; induction ops as [|o ops IH]; intros log ws H.
  - cbn. now rewrite app_nil_r.
  - change (run ws (o :: ops)) with (run (step ws o) ops). rewrite told_cons.
    rewrite app_assoc. apply IH. now apply step_mem.
Qed.

Lemma run_inv log ws ops : Inv log ws -> Inv (log ++ told category load ws ops)%list (run ws ops).
Proof.
  revert log ws; induction ops as [|o ops IH]; intros log ws H.
  - cbn. now rewrite app_nil_r.
  - change (run ws (o :: ops)) with (run (step ws o) ops).
    rewrite told_cons.
    rewrite app_assoc. apply IH. now apply step_inv.
Qed.

Lemma new_session_ind (P : list (key * V) -> world V * sess -> Prop) w0 n r kwargs :
  (forall log w s v name iu is, P log (w, s) ->
     P (log ++ [(get_base_name name iu is, v)])%list (tell w s v name iu is)) ->
  P [] (w0, Sess n r [] None) ->
  P (told_new of_int n kwargs) (new_session w0 n r kwargs).
Proof.
  intros Ht H0. unfold SessionModel.new_session, told_new.
  destruct (tell w0 (Sess n r [] None) (of_int n) "n_samples_per_update" INone INone) as [w1 s1] eqn:E1.
  assert (H1 : P [(KStr "n_samples_per_update", of_int n)] (w1, s1)).
  { rewrite <- E1. apply (Ht [] w0 (Sess n r [] None) (of_int n) "n_samples_per_update" INone INone). exact H0. }
  clear E1 H0. change (P ([(KStr "n_samples_per_update", of_int n)] ++
    map (fun nv => (KStr (fst nv), snd nv)) kwargs)%list
    (fold_left (fun ws nv => tell (fst ws) (snd ws) (snd nv) (fst nv) INone INone) kwargs (w1, s1))).
  revert H1. generalize [(KStr "n_samples_per_update", of_int n)] as log. generalize (w1, s1) as ws.
  induction kwargs as [|[nm v] kw IH]; intros ws log H; cbn [map fold_left].
  - now rewrite app_nil_r.
  - replace (log ++ (KStr (fst (nm, v)), snd (nm, v)) :: map (fun nv => (KStr (fst nv), snd nv)) kw)%list with
      ((log ++ [(KStr nm, v)]) ++ map (fun nv => (KStr (fst nv), snd nv)) kw)%list
      by (rewrite <- app_assoc; reflexivity).
    apply IH. cbn [fst snd]. destruct ws as [w s]. apply (Ht log w s v nm INone INone). exact H.
Qed.

Lemma new_session_inv w0 n r kwargs : wf_world w0 ->
  Inv (told_new of_int n kwargs) (new_session w0 n r kwargs).
Proof.
  intros Hw. apply new_session_ind; [intros; now apply tell_inv|]. split; [exact Hw|]. discriminate.
Qed.
Lemma new_session_mem w0 n kwargs : Mem (told_new of_int n kwargs) (new_session w0 n RNone kwargs).
Proof. apply new_session_ind; [intros; now apply tell_mem|]. split; reflexivity. Qed.

Lemma tells_root (kw : list (string * V)) ws :
  s_root (snd (fold_left (fun ws nv => tell (fst ws) (snd ws) (snd nv) (fst nv) INone INone) kw ws)) = s_root (snd ws).
Proof. revert ws; induction kw as [|[nm v] kw IH]; intros ws; [reflexivity|]. cbn [fold_left]. rewrite IH. reflexivity. Qed.
Lemma new_session_root w0 n r kwargs : s_root (snd (new_session w0 n r kwargs)) = r.
Proof. unfold SessionModel.new_session. destruct (tell _ _ _ _ _ _) as [w1 s1] eqn:E.
  rewrite tells_root. cbn. injection E as <- <-. reflexivity. Qed.

Lemma ask_root w s name iu is : s_root (snd (fst (ask w s name iu is))) = s_root s.
Proof.
  unfold SessionModel.ask. destruct (cache_get _ _) as [a|]; [destruct (nth_error _ a); reflexivity|].
  destruct (negb _); [reflexivity|]. destruct (load_file _ _ _); reflexivity.
Qed.
Lemma step_root ws o : s_root (snd (step ws o)) = s_root (snd ws).
Proof.
  destruct ws as [w s], o as [v|a v|a name iu is|name iu is]; cbn [SessionModel.step snd]; auto.
  - destruct (owned w a); reflexivity.
  - destruct (nth_error _ a); [destruct (owned w a)|]; reflexivity.
  - apply ask_root.
Qed.
Lemma run_root ws ops : s_root (snd (run ws ops)) = s_root (snd ws).
Proof. revert ws; induction ops as [|o ops IH]; intros ws; [reflexivity|].
  change (run ws (o :: ops)) with (run (step ws o) ops). now rewrite IH, step_root. Qed.

Lemma inv_ask log ws name iu is v :
  Inv log ws -> latest (get_base_name name iu is) log = Some v ->
  returns_fresh (fst ws) (ask (fst ws) (snd ws) name iu is) v.
Proof.
  intros (_ & Hk) H. destruct (Hk _ _ H) as (a & H1 & H2 & _). unfold SessionModel.ask. rewrite H1, H2.
  eexists _, _. split; reflexivity.
Qed.

(** C17 for a session created by the constructor *)
Lemma ask_latest w0 n r kwargs ops name iu is v :
  wf_world w0 ->
  let ws := run (new_session w0 n r kwargs) ops in
  latest (get_base_name name iu is)
    (told_new of_int n kwargs ++ told category load (new_session w0 n r kwargs) ops) = Some v ->
  returns_fresh (fst ws) (ask (fst ws) (snd ws) name iu is) v.
Proof.
  intros Hw ws H. eapply inv_ask; [|exact H]. apply run_inv. now apply new_session_inv.
Qed.

(** C17 for any session state, e.g. one opened on an existing directory *)
Lemma ask_latest_any w s ops name iu is v :
  wf_world w ->
  let ws := run (w, s) ops in
  latest (get_base_name name iu is) (told category load (w, s) ops) = Some v ->
  returns_fresh (fst ws) (ask (fst ws) (snd ws) name iu is) v.
Proof.
  intros Hw ws H. eapply inv_ask; [|exact H].
  apply (run_inv [] (w, s) ops). split; [exact Hw|discriminate].
Qed.

(** in memory: KeyError for everything never told *)
Lemma ask_never_told w0 n kwargs ops name iu is :
  let ws := run (new_session w0 n RNone kwargs) ops in
  latest (get_base_name name iu is)
    (told_new of_int n kwargs ++ told category load (new_session w0 n RNone kwargs) ops) = None ->
  ask (fst ws) (snd ws) name iu is = (fst ws, snd ws, Err KeyError).
Proof.
  intros ws H. destruct (run_mem _ _ ops (new_session_mem w0 n kwargs)) as (Hr & Hm).
  fold ws in Hr, Hm. unfold SessionModel.ask. rewrite (Hm _ H), Hr. reflexivity.
Qed.

(** ** C19 *)
Lemma find_file_ext (fs : list (string * ext * V)) p :
  (exists v, find_file fs p Json = Some v) \/ (exists v, find_file fs p Csv = Some v) \/
  (exists v, find_file fs p Txt = Some v) \/
  (find_file fs p Json = None /\ find_file fs p Csv = None /\ find_file fs p Txt = None).
Proof.
  destruct (find_file fs p Json); [eauto|]. destruct (find_file fs p Csv); [eauto|].
  destruct (find_file fs p Txt); eauto 6.
Qed.

(** all cached addresses are allocated *)
Definition cache_ok (ws : world V * sess) : Prop :=
  forall k a, cache_get (s_cache (snd ws)) k = Some a -> (a < length (w_heap (fst ws)))%nat.

Lemma tell_cache_ok w s v name iu is : cache_ok (w, s) -> cache_ok (tell w s v name iu is).
Proof.
  intros H k a. unfold SessionModel.tell. cbn [fst snd s_cache w_heap]. rewrite cache_get_set, app_length. cbn [length].
  destruct (key_eqb k _); [intros E; injection E as <-; lia|]. intros E. apply H in E. cbn in E. lia.
Qed.
Lemma ask_cache_ok w s name iu is : cache_ok (w, s) -> cache_ok (fst (ask w s name iu is)).
Proof.
  intros H. unfold SessionModel.ask. destruct (cache_get _ _) as [a|] eqn:E.
  - destruct (nth_error _ a); cbn [fst]; [|exact H]. intros k b Hb. cbn [fst snd w_heap] in *.
    rewrite app_length. apply H in Hb. cbn in *. lia.
  - destruct (negb _); [exact H|]. destruct (load_file _ _ _); [|exact H].
    intros k b. cbn [fst snd s_cache w_heap]. rewrite cache_get_set, app_length. cbn [length].
    destruct (key_eqb k _); [intros E'; injection E' as <-; lia|]. intros E'. apply H in E'. cbn in E'. lia.
Qed.
Lemma step_cache_ok ws o : cache_ok ws -> cache_ok (step ws o).
Proof.
  destruct ws as [w s]. intros H. destruct o as [v|a v|a name iu is|name iu is]; cbn [SessionModel.step].
  - intros k b Hb. apply H in Hb. cbn [fst w_heap] in *. rewrite app_length. lia.
  - destruct (owned w a); [|exact H]. intros k b Hb. apply H in Hb. cbn [fst w_heap] in *.
    now rewrite set_nth_length.
  - destruct (nth_error _ a); [|exact H]. destruct (owned w a); [|exact H]. now apply tell_cache_ok.
  - now apply ask_cache_ok.
Qed.
Lemma run_cache_ok ws ops : cache_ok ws -> cache_ok (run ws ops).
Proof. revert ws; induction ops as [|o ops IH]; intros ws H; [exact H|].
  change (run ws (o :: ops)) with (run (step ws o) ops). apply IH. now apply step_cache_ok. Qed.
Lemma new_cache_ok w0 n r kwargs : cache_ok (new_session w0 n r kwargs).
Proof.
  apply (new_session_ind (fun _ => cache_ok)); [intros; now apply tell_cache_ok|].
  intros k a E. discriminate.
Qed.

Lemma exists_iff_ask_state w s name iu is : cache_ok (w, s) -> s_root s <> REmpty ->
  (exists_ w s name iu is = true <-> exists w' s' a, ask w s name iu is = (w', s', Ok a)).
Proof.
  intros Hc Hr. unfold exists_, SessionModel.ask. set (k := get_base_name name iu is).
  destruct (cache_get (s_cache s) k) as [a|] eqn:E.
  - apply Hc in E. cbn in E. apply nth_error_Some in E.
    destruct (nth_error (w_heap w) a); [|contradiction]. split; eauto.
  - destruct (s_root s); cbn [not_none truthy negb]; [|contradiction|].
    + split; [discriminate|]. intros (w' & s' & a & H). discriminate.
    + unfold load_file.
      destruct (find_file_ext (d_files (w_disk w)) (path k)) as [[v H]|[[v H]|[[v H]|(H1 & H2 & H3)]]].
      * rewrite H. split; eauto.
      * rewrite H. destruct (find_file (d_files (w_disk w)) (path k) Json); split; eauto;
        intros _; cbn; now rewrite !orb_true_r.
      * rewrite H. destruct (find_file (d_files (w_disk w)) (path k) Json);
        destruct (find_file (d_files (w_disk w)) (path k) Csv); split; eauto.
      * rewrite H1, H2, H3. split; [discriminate|]. intros (w' & s' & a & H). discriminate.
Qed.

(** the error raised otherwise *)
Lemma ask_error w s name iu is : cache_ok (w, s) -> s_root s <> REmpty -> exists_ w s name iu is = false ->
  ask w s name iu is = (w, s, Err (match s_root s with RNone => KeyError | _ => IOError end)).
Proof.
  intros Hc Hr. unfold exists_, SessionModel.ask. set (k := get_base_name name iu is).
  destruct (cache_get (s_cache s) k) as [a|] eqn:E; [discriminate|].
  destruct (s_root s); cbn [not_none truthy negb]; [reflexivity|contradiction|].
  unfold load_file. destruct (find_file _ _ Json); [discriminate|]. destruct (find_file _ _ Txt); [discriminate|].
  destruct (find_file _ _ Csv); [discriminate|]. reflexivity.
Qed.

Lemma exists_iff_ask w0 n r kwargs ops name iu is : r <> REmpty ->
  let ws := run (new_session w0 n r kwargs) ops in
  (exists_ (fst ws) (snd ws) name iu is = true <->
   exists w' s' a, ask (fst ws) (snd ws) name iu is = (w', s', Ok a)).
Proof.
  intros Hr ws. apply exists_iff_ask_state.
  - rewrite <- surjective_pairing. apply run_cache_ok, new_cache_ok.
  - unfold ws. rewrite run_root, new_session_root. exact Hr.
Qed.

(** ** C21: sharing *)
Lemma ask_cached w s name iu is a v :
  cache_get (s_cache s) (get_base_name name iu is) = Some a -> nth_error (w_heap w) a = Some v ->
  returns_fresh w (ask w s name iu is) v.
Proof. intros H1 H2. unfold SessionModel.ask. rewrite H1, H2. eexists _, _. split; reflexivity. Qed.


Lemma step_keeps ws o k a v : ~ tells_key k o -> ~ mutates a o ->
  cache_get (s_cache (snd ws)) k = Some a -> nth_error (w_heap (fst ws)) a = Some v ->
  cache_get (s_cache (snd (step ws o))) k = Some a /\ nth_error (w_heap (fst (step ws o))) a = Some v.
Proof.
  destruct ws as [w s]. cbn [fst snd]. intros Ht Hm H1 H2. assert (Ha := nth_error_lt _ _ _ H2).
  destruct o as [x|b x|b name iu is|name iu is]; cbn [SessionModel.step tells_key mutates] in *.
  - cbn. split; [auto|]. now rewrite nth_error_snoc_lt.
  - destruct (owned w b); cbn; split; auto. rewrite nth_error_set_nth_neq; auto.
  - destruct (nth_error (w_heap w) b); [|auto]. destruct (owned w b); [|auto].
    cbn. rewrite cache_get_set, key_eqb_neq by auto. split; [auto|]. now rewrite nth_error_snoc_lt.
  - unfold SessionModel.ask. destruct (cache_get (s_cache s) (get_base_name name iu is)) as [b|] eqn:E.
    + destruct (nth_error (w_heap w) b); cbn; split; auto. now rewrite nth_error_snoc_lt.
    + destruct (negb _); [auto|]. destruct (load_file _ _ _); [|auto]. cbn. rewrite cache_get_set.
      destruct (key_eqb k (get_base_name name iu is)) eqn:E'.
      * apply key_eqb_eq in E'. subst k. congruence.
      * split; [auto|]. now rewrite nth_error_snoc_lt.
Qed.

Lemma run_keeps ws ops k a v : Forall (fun o => ~ tells_key k o /\ ~ mutates a o) ops ->
  cache_get (s_cache (snd ws)) k = Some a -> nth_error (w_heap (fst ws)) a = Some v ->
  cache_get (s_cache (snd (run ws ops))) k = Some a /\ nth_error (w_heap (fst (run ws ops))) a = Some v.
Proof.
  revert ws; induction ops as [|o ops IH]; intros ws Hf H1 H2; [auto|].
  inversion Hf as [|? ? [Ht Hm] Hf']; subst. change (run ws (o :: ops)) with (run (step ws o) ops).
  destruct (step_keeps ws o k a v); auto.
Qed.

(** after an ask, the only way to change what later asks of this entry return, without telling it
    again, is to modify the cell in the cache: for the first ask of an entry from a file, this is
    the object that this ask returned *)
Lemma ask_first_stable w s name iu is w1 s1 a v ops :
  ask w s name iu is = (w1, s1, Ok a) -> nth_error (w_heap w1) a = Some v ->
  cache_get (s_cache s) (get_base_name name iu is) = None ->
  Forall (fun o => ~ tells_key (get_base_name name iu is) o /\ ~ mutates a o) ops ->
  let ws := run (w1, s1) ops in
  returns_fresh (fst ws) (ask (fst ws) (snd ws) name iu is) v.
Proof.
  intros Ha Hv Hc Hf ws. unfold SessionModel.ask in Ha. set (k := get_base_name name iu is) in *.
  rewrite Hc in Ha. destruct (negb _); [discriminate|]. destruct (load_file _ _ _) as [v'|]; [|discriminate].
  assert (G : cache_get (s_cache s1) k = Some a).
  { injection Ha as <- <- <-. cbn. rewrite cache_get_set. now rewrite key_eqb_refl. }
  destruct (run_keeps (w1, s1) ops k a v Hf G Hv) as [H1 H2]. eapply ask_cached; eauto.
Qed.
(** a second ask of the same entry returns another object: modifying that one has no effect *)
Lemma ask_again_stable w s name iu is w1 s1 a v b ops :
  cache_get (s_cache s) (get_base_name name iu is) = Some b ->
  ask w s name iu is = (w1, s1, Ok a) -> nth_error (w_heap w1) a = Some v ->
  Forall (fun o => ~ tells_key (get_base_name name iu is) o /\ ~ mutates b o) ops ->
  let ws := run (w1, s1) ops in
  a <> b /\ returns_fresh (fst ws) (ask (fst ws) (snd ws) name iu is) v.
Proof.
  intros Hc Ha Hv Hf ws. unfold SessionModel.ask in Ha. set (k := get_base_name name iu is) in *.
  rewrite Hc in Ha. destruct (nth_error (w_heap w) b) as [v'|] eqn:Eb; [|discriminate].
  injection Ha as <- <- <-. cbn [w_heap] in Hv. rewrite nth_error_snoc_eq in Hv. injection Hv as ->.
  assert (Hb := nth_error_lt _ _ _ Eb). split; [lia|].
  destruct (run_keeps (World (w_heap w ++ [v]) (w_disk w) (length (w_heap w) :: w_owned w), s) ops k b v) as [H1 H2]; auto.
  - cbn. now rewrite nth_error_snoc_lt.
  - eapply ask_cached; eauto.
Qed.
End S.
