(* Proofs for AdesModel: the contexts of a file. *)
From Coq Require Import Ascii String QArith Lia ZArith Permutation Sorted.
From Verif Require Import Base ListLemmas TimeModel MpcModel MpcSpec MpcProofs ObsModel ObsSpec ObsProofs AdesModel AdesSpec AdesProofs AdesRows AdesFile.
Open Scope string_scope.
Open Scope Z_scope.
Open Scope list_scope.

(* ---- dictionaries ---- *)
Section DictProofs.
Context {K V : Type} (eqb : K -> K -> bool).
Hypothesis eqb_eq : forall a b, eqb a b = true <-> a = b.
Lemma eqb_refl_ : forall a, eqb a a = true. Proof. intros a. apply eqb_eq. reflexivity. Qed.
Lemma dget_same : forall (k : K) (v : V) d, dget eqb k (dset eqb k v d) = Some v.
Proof. intros k v d. induction d as [|[k' w] d IH]; cbn; [rewrite eqb_refl_; reflexivity|]. destruct (eqb k k') eqn:E; cbn; [rewrite eqb_refl_; reflexivity|rewrite E; exact IH]. Qed.
Lemma dget_other : forall (k k2 : K) (v : V) d, k2 <> k -> dget eqb k2 (dset eqb k v d) = dget eqb k2 d.
Proof.
  intros k k2 v d N. induction d as [|[k' w] d IH]; cbn.
  - destruct (eqb k2 k) eqn:E; [apply eqb_eq in E; congruence|reflexivity].
  - destruct (eqb k k') eqn:E; cbn; [|rewrite IH; reflexivity]. apply eqb_eq in E. subst k'. destruct (eqb k2 k) eqn:E2; [apply eqb_eq in E2; congruence|reflexivity].
Qed.
Lemma dset_new : forall (k : K) (v : V) d, dget eqb k d = None -> dset eqb k v d = d ++ [(k, v)].
Proof. intros k v d. induction d as [|[k' w] d IH]; cbn; auto. destruct (eqb k k'); [discriminate|]. intros H. rewrite IH; auto. Qed.
Lemma dget_none : forall (k : K) (d : list (K * V)), ~ In k (map fst d) -> dget eqb k d = None.
Proof. intros k d. induction d as [|[k' w] d IH]; cbn; auto. intros H. destruct (eqb k k') eqn:E; [apply eqb_eq in E; subst; tauto|]. auto. Qed.
End DictProofs.

(* ---- one line ---- *)
Definition word (k : str) : Prop := k <> [] /\ Forall (fun c => ~ white c) k.
Definition wordb (k : str) : bool := match k with [] => false | _ => forallb (fun c => negb (is_space c)) k end.
Lemma wordb_ok : forall k, wordb k = true -> word k.
Proof.
  intros [|c k] H; [discriminate|]. split; [discriminate|]. unfold wordb in H. rewrite forallb_forall in H. apply Forall_forall. intros x Hx. apply white_not.
  specialize (H x Hx). apply Bool.negb_true_iff in H. exact H.
Qed.
Lemma trimmed_word : forall k, word k -> trimmed k.
Proof. intros k [N F]. rewrite Forall_forall in F. split; intros c r ->; apply F; [cbn; auto|apply in_or_app; cbn; auto]. Qed.
Lemma white_sp : white " "%char. Proof. apply white_is. reflexivity. Qed.
Lemma plain_word_strip : forall v, Forall (fun c => c = " "%char \/ ~ white c) v -> map strip (split_on " " v) = split_on " " v.
Proof.
  intros v F. rewrite <- (map_id (split_on " " v)) at 2. apply map_ext_in. intros w Hw. apply strip_trimmed.
  assert (G : forall c, In c w -> ~ white c).
  { intros c Hc. destruct (split_In _ _ _ _ Hw Hc) as [I N]. rewrite Forall_forall in F. destruct (F c I); [congruence|auto]. }
  split; intros c r ->; apply G; [cbn; auto|apply in_or_app; cbn; auto].
Qed.
Lemma word_nosp : forall k, word k -> ~ In " "%char k.
Proof. intros k [_ F] I. rewrite Forall_forall in F. exact (F _ I white_sp). Qed.
Lemma word_plain : forall k, word k -> Forall (fun c => c = " "%char \/ ~ white c) k.
Proof. intros k [_ F]. eapply Forall_impl; [|exact F]. auto. Qed.
Lemma plain_trim_end : forall k v, word k -> plain_text v -> v <> [] -> trimmed (k ++ " "%char :: v).
Proof.
  intros k v W [F E] N. split.
  - intros c r H. destruct W as [Nk Fk]. destruct k as [|x k]; [congruence|]. injection H as <- _. inversion Fk; auto.
  - intros c r H. destruct (exists_last N) as [v' [x Ev]]. rewrite Ev in H, F. replace (k ++ " "%char :: v' ++ [x]) with ((k ++ " "%char :: v') ++ [x]) in H by (rewrite <- app_assoc; reflexivity).
    apply app_inj_tail in H. destruct H as [_ <-]. apply Forall_app in F. destruct F as [_ F]. inversion F as [|? ? [X|X] _]; subst; auto. exfalso. exact (E v' eq_refl).
Qed.
(* the content of a section line or keyword line *)
Lemma kv_text : forall k v, word k -> plain_text v ->
  exists t vs, strip (k ++ " "%char :: v) = t /\ trimmed t /\ key_value t = (k, vs) /\ join " " vs = v /\ (v <> [] -> vs <> []) /\ (exists r, t = k ++ r).
Proof.
  intros k v W P. pose proof (trimmed_word k W) as TW. destruct v as [|x v].
  - exists k, []. split.
    + unfold strip. rewrite (lstrip_id (k ++ [" "%char])). { rewrite rev_app_distr. cbn [rev app]. cbn [lstrip]. change (is_space " ") with true. cbn iota. rewrite lstrip_id; [apply rev_involutive|].
        intros c r H. apply rev_head in H. exact (proj2 TW c _ H). }
      intros c r H. destruct W as [N F]. destruct k as [|y k]; [congruence|]. injection H as <- _. inversion F; auto.
    + split; auto. split; [|repeat split; auto; exists []; rewrite app_nil_r; reflexivity]. unfold key_value. rewrite plain_word_strip by (apply word_plain; auto). rewrite split_none by (apply word_nosp; auto). reflexivity.
  - pose proof (plain_trim_end k (x :: v) W P ltac:(discriminate)) as T. exists (k ++ " "%char :: x :: v), (split_on " " (x :: v)). split; [apply strip_trimmed; auto|]. split; auto. split.
    + unfold key_value. rewrite plain_word_strip.
      * rewrite split_app by (apply word_nosp; auto). reflexivity.
      * apply Forall_app. split; [apply word_plain; auto|]. constructor; [auto|]. apply P.
    + split; [apply join_split|]. split; [intros _; apply split_nonempty|]. exists (" "%char :: x :: v). reflexivity.
Qed.
Lemma lstrip_app : forall a b, lstrip a <> [] -> lstrip (a ++ b) = lstrip a ++ b.
Proof. induction a as [|x a IH]; intros b H; [contradiction H; reflexivity|]. cbn in *. destruct (is_space x); auto. Qed.
Lemma lstrip_nil : forall a b, lstrip a = [] -> lstrip (a ++ b) = lstrip b.
Proof. induction a as [|x a IH]; intros b H; auto. cbn in *. destruct (is_space x); [auto|discriminate]. Qed.
(* strip of a line that starts with a marker: the rest is only stripped on the right *)
Lemma strip_marker : forall c s, ~ white c -> exists r, strip (c :: " "%char :: s) = c :: r /\ strip r = strip s.
Proof.
  intros c s W. apply white_not in W. unfold strip at 1. cbn [lstrip]. rewrite W. cbn [rev]. rewrite <- app_assoc. cbn [app].
  destruct (lstrip (rev s)) as [|y l] eqn:E.
  - rewrite lstrip_nil by auto. exists []. split; [cbn [lstrip]; change (is_space " ") with true; cbn iota; cbn [lstrip]; rewrite W; reflexivity|].
    assert (A : forall z, In z s -> is_space z = true).
    { intros z Hz. apply in_rev in Hz. revert E Hz. generalize (rev s). induction l as [|u l IH]; cbn; [intros _ []|]. destruct (is_space u) eqn:U; [|discriminate]. intros E [<-|Hz]; auto. }
    assert (B : lstrip s = []). { clear -A. induction s as [|u s IH]; auto. cbn. rewrite (A u) by (cbn; auto). apply IH. intros z Hz. apply A. cbn; auto. }
    unfold strip. rewrite B. reflexivity.
  - rewrite lstrip_app by (rewrite E; discriminate). rewrite E. cbn [app]. exists (" "%char :: rev (y :: l)). split; [change (rev ((y :: l) ++ [" "%char; c]) = c :: " "%char :: rev (y :: l)); rewrite rev_app_distr; reflexivity|].
    unfold strip at 1. cbn [lstrip]. change (is_space " ") with true. cbn iota. unfold strip.
    (* strip s = rev (lstrip (rev (lstrip s))) where rev s = spaces ++ y :: l *)
    assert (X : exists sp, rev s = sp ++ y :: l /\ forall z, In z sp -> is_space z = true).
    { clear -E. revert E. generalize (rev s). induction l0 as [|u l0 IH]; cbn; [discriminate|]. destruct (is_space u) eqn:U.
      - intros E. destruct (IH E) as [sp [-> H]]. exists (u :: sp). split; [reflexivity|]. intros z [<-|Hz]; auto.
      - intros E. injection E as -> ->. exists []. split; [reflexivity|intros z []]. }
    destruct X as [sp [X SP]]. assert (S : s = rev (y :: l) ++ rev sp) by (rewrite <- rev_app_distr, <- X, rev_involutive; reflexivity).
    rewrite S. assert (Y : is_space y = false). { clear -E. revert E. generalize (rev s). induction l0 as [|u l0 IH]; cbn; [discriminate|]. destruct (is_space u) eqn:U; auto. intros E. injection E as -> ->. exact U. }
    assert (NN : lstrip (rev (y :: l)) <> []).
    { cbn [rev]. generalize (rev l). intros l2. induction l2 as [|u l2 IH]; cbn; [rewrite Y; discriminate|]. destruct (is_space u); [exact IH|discriminate]. }
    rewrite lstrip_app by exact NN. rewrite rev_app_distr, rev_involutive.
    f_equal. assert (Z : forall a b, (forall z, In z a -> is_space z = true) -> lstrip (a ++ b) = lstrip b).
    { induction a as [|u a IH]; intros b H; auto. cbn. rewrite (H u) by (cbn; auto). apply IH. intros; apply H; cbn; auto. }
    rewrite Z by exact SP. reflexivity.
Qed.

(* ---- one step of the reader ---- *)
Lemma bang_line : forall k v, word (s_ k) -> plain_text v -> exists r vs, strip (bang k v) = "!"%char :: r /\ key_value (strip r) = (s_ k, vs) /\ join " " vs = v.
Proof.
  intros k v W P. change (bang k v) with ("!"%char :: " "%char :: (s_ k ++ " "%char :: v)).
  destruct (strip_marker "!" (s_ k ++ " "%char :: v)) as [r [E S]]; [apply white_not; reflexivity|].
  destruct (kv_text (s_ k) v W P) as (t & vs & T & _ & KV & J & _). exists r, vs. rewrite E, S, T. auto.
Qed.
Lemma hash_line : forall k, word (s_ k) -> exists r, strip (hash k) = "#"%char :: r /\ strip r = s_ k /\ key_value (s_ k) = (s_ k, []).
Proof.
  intros k W. change (hash k) with ("#"%char :: " "%char :: s_ k). destruct (strip_marker "#" (s_ k)) as [r [E S]]; [apply white_not; reflexivity|].
  exists r. split; auto. split; [rewrite S; apply strip_trimmed, trimmed_word; auto|]. unfold key_value. rewrite plain_word_strip by (apply word_plain; auto). rewrite split_none by (apply word_nosp; auto). reflexivity.
Qed.
Definition dlook (h : header) (k : string) : option section := dget oeqb (Some (s_ k)) h.
Definition dict0 (s : option section) : option (list (str * str)) := match s with None => Some [] | Some (SDict d) => Some d | _ => None end.
Definition code_of (k : string) (v : str) (c : option str) : option str := if str_eqb (s_ k) (s_ "mpcCode") then Some v else c.
Lemma step_dict : forall m sk k v d, word (s_ k) -> plain_text v -> m_section m = Some (s_ sk) -> is_list_section (Some (s_ sk)) = false -> dict0 (dlook (m_context m) sk) = Some d ->
  meta_line m (strip (bang k v)) = Ok (mkstate (Some (s_ sk)) (dset oeqb (Some (s_ sk)) (SDict (dset str_eqb (s_ k) v d)) (m_context m)) (code_of k v (m_code m)) (m_contexts m)).
Proof.
  intros m sk k v d W P SK NL D. destruct (bang_line k v W P) as (r & vs & E & KV & J). rewrite E. unfold meta_line. change (Ascii.eqb "!" "#") with false. change (Ascii.eqb "!" "!") with true.
  cbn iota. rewrite KV, J, SK, NL. cbv zeta. unfold dlook in D. destruct (dget oeqb (Some (s_ sk)) (m_context m)) as [[t|d'|l]|]; try discriminate; injection D as <-; reflexivity.
Qed.
Definition list0 (s : option section) : option (list (str * list str)) := match s with None => Some [] | Some (SList d) => Some d | _ => None end.
Lemma step_list : forall m sk k v d, word (s_ k) -> plain_text v -> m_section m = Some (s_ sk) -> is_list_section (Some (s_ sk)) = true -> list0 (dlook (m_context m) sk) = Some d ->
  meta_line m (strip (bang k v)) = Ok (mkstate (Some (s_ sk)) (dset oeqb (Some (s_ sk)) (SList (dset str_eqb (s_ k) (match dget str_eqb (s_ k) d with Some l => l ++ [v] | None => [v] end) d)) (m_context m))
    (code_of k v (m_code m)) (m_contexts m)).
Proof.
  intros m sk k v d W P SK NL D. destruct (bang_line k v W P) as (r & vs & E & KV & J). rewrite E. unfold meta_line. change (Ascii.eqb "!" "#") with false. change (Ascii.eqb "!" "!") with true.
  cbn iota. rewrite KV, J, SK, NL. cbv zeta. unfold dlook in D. destruct (dget oeqb (Some (s_ sk)) (m_context m)) as [[t|d'|l]|]; try discriminate; injection D as <-; reflexivity.
Qed.
Lemma step_hash : forall m k, word (s_ k) -> startswith (s_ "version") (s_ k) = false -> str_eqb (s_ k) (s_ "observatory") = false ->
  meta_line m (strip (hash k)) = Ok (mkstate (Some (s_ k)) (m_context m) (m_code m) (m_contexts m)).
Proof.
  intros m k W V O. destruct (hash_line k W) as (r & E & S & KV). rewrite E. unfold meta_line. change (Ascii.eqb "#" "#") with true. cbn iota. rewrite S. cbv zeta. rewrite V, KV, O. reflexivity.
Qed.
Lemma step_observatory : forall m cs, flush m = Ok cs -> meta_line m (strip (hash "observatory")) = Ok (mkstate (Some (s_ "observatory")) [] None cs).
Proof.
  intros m cs F. destruct (hash_line "observatory" (wordb_ok (s_ "observatory") eq_refl)) as (r & E & S & KV). rewrite E. unfold meta_line. change (Ascii.eqb "#" "#") with true. cbn iota. rewrite S. cbv zeta.
  change (startswith (s_ "version") (s_ "observatory")) with false. cbn iota. rewrite KV, str_eqb_refl, F. reflexivity.
Qed.
Lemma step_funding : forall m v, plain_text v -> v <> [] ->
  meta_line m (strip (s_ "# fundingSource " ++ v)) = Ok (mkstate (Some (s_ "fundingSource")) (dset oeqb (Some (s_ "fundingSource")) (SText v) (m_context m)) (m_code m) (m_contexts m)).
Proof.
  intros m v P N. change (s_ "# fundingSource " ++ v) with ("#"%char :: " "%char :: (s_ "fundingSource" ++ " "%char :: v)).
  destruct (strip_marker "#" (s_ "fundingSource" ++ " "%char :: v)) as [r [E S]]; [apply white_not; reflexivity|]. rewrite E. unfold meta_line. change (Ascii.eqb "#" "#") with true. cbn iota. rewrite S.
  destruct (kv_text (s_ "fundingSource") v (wordb_ok (s_ "fundingSource") eq_refl) P) as (t & vs & T & _ & KV & J & NV & [q Q]). rewrite T. cbv zeta. rewrite KV. rewrite Q. change (startswith (s_ "version") (s_ "fundingSource" ++ q)) with false. cbn iota.
  change (str_eqb (s_ "fundingSource") (s_ "observatory")) with false. cbn iota. cbn [bind]. rewrite J. specialize (NV N). destruct vs; [congruence|reflexivity].
Qed.
Lemma meta_lines_app : forall a b m, meta_lines m (a ++ b) = bind (meta_lines m a) (fun m' => meta_lines m' b).
Proof. induction a as [|l a IH]; intros b m; auto. cbn. destruct (meta_line m l); cbn; auto. Qed.

(* ---- a section ---- *)
Definition others (k : string) (h h' : header) : Prop := forall k', s_ k' <> s_ k -> dlook h' k' = dlook h k'.
Definition after (m m' : mstate) (k : string) (s : option section) : Prop :=
  dlook (m_context m') k = s /\ others k (m_context m) (m_context m') /\ m_code m' = m_code m /\ m_contexts m' = m_contexts m.
Definition plain_kv (kv : string * str) : Prop := word (s_ (fst kv)) /\ str_eqb (s_ (fst kv)) (s_ "mpcCode") = false /\ plain_text (snd kv).
Definition bangs (kvs : list (string * str)) : list str := map (fun kv => bang (fst kv) (snd kv)) kvs.
Definition dict_kvs (kvs : list (string * str)) (d : list (str * str)) : list (str * str) := fold_left (fun d kv => dset str_eqb (s_ (fst kv)) (snd kv) d) kvs d.
Lemma dlook_dset : forall h sk s, dlook (dset oeqb (Some (s_ sk)) s h) sk = Some s.
Proof. intros h sk s. unfold dlook. apply (dget_same oeqb oeqb_eq). Qed.
Lemma others_dset : forall h sk s, others sk h (dset oeqb (Some (s_ sk)) s h).
Proof. intros h sk s k' N. unfold dlook. apply (dget_other oeqb oeqb_eq). congruence. Qed.
Lemma others_trans : forall k a b c, others k a b -> others k b c -> others k a c.
Proof. intros k a b c A B k' N. rewrite B, A; auto. Qed.
Lemma fill_dict : forall sk kvs, is_list_section (Some (s_ sk)) = false -> Forall plain_kv kvs -> forall m d, m_section m = Some (s_ sk) -> dict0 (dlook (m_context m) sk) = Some d ->
  exists m', meta_lines m (map strip (bangs kvs)) = Ok m' /\ after m m' sk (match kvs with [] => dlook (m_context m) sk | _ => Some (SDict (dict_kvs kvs d)) end).
Proof.
  intros sk kvs NL F. induction F as [|kv kvs (W & C & P) F IH]; intros m d SK D; [exists m; split; [reflexivity|repeat split; auto; intros k' _; reflexivity]|].
  cbn [bangs map meta_lines]. rewrite (step_dict m sk (fst kv) (snd kv) d W P SK NL D). cbn [bind].
  set (m1 := mkstate _ _ _ _). destruct (IH m1 (dset str_eqb (s_ (fst kv)) (snd kv) d)) as [m' [E (A1 & A2 & A3 & A4)]]; [reflexivity|unfold m1; cbn [m_context]; rewrite dlook_dset; reflexivity|].
  exists m'. split; [exact E|]. unfold m1 in *; cbn [m_context m_code m_contexts] in *. split; [|split; [|split]].
  - rewrite A1. destruct kvs; [rewrite dlook_dset; reflexivity|reflexivity].
  - eapply others_trans; [apply others_dset|exact A2].
  - rewrite A3. unfold code_of. rewrite C. reflexivity.
  - exact A4.
Qed.
Lemma fill_list : forall sk k l, is_list_section (Some (s_ sk)) = true -> word (s_ k) -> str_eqb (s_ k) (s_ "mpcCode") = false -> Forall plain_text l -> forall m l0, m_section m = Some (s_ sk) ->
  (dlook (m_context m) sk = None /\ l0 = [] \/ dlook (m_context m) sk = Some (SList [(s_ k, l0)])) ->
  exists m', meta_lines m (map strip (map (bang k) l)) = Ok m' /\ after m m' sk (match l with [] => dlook (m_context m) sk | _ => Some (SList [(s_ k, l0 ++ l)]) end).
Proof.
  intros sk k l NL W C F. induction F as [|v l P F IH]; intros m l0 SK D; [exists m; split; [reflexivity|repeat split; auto; intros k' _; reflexivity]|].
  cbn [map meta_lines].
  assert (ST : meta_line m (strip (bang k v)) = Ok (mkstate (Some (s_ sk)) (dset oeqb (Some (s_ sk)) (SList [(s_ k, l0 ++ [v])]) (m_context m)) (m_code m) (m_contexts m))).
  { destruct D as [[D ->]|D].
    - rewrite (step_list m sk k v [] W P SK NL) by (rewrite D; reflexivity). unfold code_of. rewrite C. reflexivity.
    - rewrite (step_list m sk k v [(s_ k, l0)] W P SK NL) by (rewrite D; reflexivity). cbn [dget dset]. rewrite str_eqb_refl. unfold code_of. rewrite C. reflexivity. }
  rewrite ST. cbn [bind]. set (m1 := mkstate _ _ _ _). destruct (IH m1 (l0 ++ [v])) as [m' [E (A1 & A2 & A3 & A4)]]; [reflexivity|right; unfold m1; cbn [m_context]; apply dlook_dset|].
  exists m'. split; [exact E|]. unfold m1 in *; cbn [m_context m_code m_contexts] in *. split; [|split; [|split]]; auto.
  - rewrite A1. destruct l; [rewrite dlook_dset; reflexivity|]. rewrite <- app_assoc. reflexivity.
  - eapply others_trans; [apply others_dset|exact A2].
Qed.
Lemma after_hash : forall m k, word (s_ k) -> startswith (s_ "version") (s_ k) = false -> str_eqb (s_ k) (s_ "observatory") = false ->
  meta_line m (strip (hash k)) = Ok (mkstate (Some (s_ k)) (m_context m) (m_code m) (m_contexts m)).
Proof. exact step_hash. Qed.
Definition header_ok (k : string) : bool := wordb (s_ k) && negb (startswith (s_ "version") (s_ k)) && negb (str_eqb (s_ k) (s_ "observatory")).
Lemma header_ok_iff : forall k, header_ok k = true -> word (s_ k) /\ startswith (s_ "version") (s_ k) = false /\ str_eqb (s_ k) (s_ "observatory") = false.
Proof. intros k H. unfold header_ok in H. rewrite !Bool.andb_true_iff, !Bool.negb_true_iff in H. destruct H as [[A B] C]. auto using wordb_ok. Qed.
Lemma dict_block : forall sk kvs m, header_ok sk = true -> is_list_section (Some (s_ sk)) = false -> Forall plain_kv kvs -> dlook (m_context m) sk = None ->
  exists m', meta_lines m (map strip (hash sk :: bangs kvs)) = Ok m' /\ after m m' sk (match kvs with [] => None | _ => Some (SDict (dict_kvs kvs [])) end).
Proof.
  intros sk kvs m H NL F D. apply header_ok_iff in H. destruct H as (W & V & O). cbn [map meta_lines]. rewrite step_hash by auto. cbn [bind].
  destruct (fill_dict sk kvs NL F (mkstate (Some (s_ sk)) (m_context m) (m_code m) (m_contexts m)) [] eq_refl) as [m' [E A]]; [cbn [m_context]; rewrite D; reflexivity|].
  exists m'. split; [exact E|]. cbn [m_context] in A. rewrite D in A. exact A.
Qed.
Lemma list_block : forall sk k l m, header_ok sk = true -> is_list_section (Some (s_ sk)) = true -> word (s_ k) -> str_eqb (s_ k) (s_ "mpcCode") = false -> Forall plain_text l -> dlook (m_context m) sk = None ->
  exists m', meta_lines m (map strip (hash sk :: map (bang k) l)) = Ok m' /\ after m m' sk (match l with [] => None | _ => Some (SList [(s_ k, l)]) end).
Proof.
  intros sk k l m H NL Wk C F D. apply header_ok_iff in H. destruct H as (W & V & O). cbn [map meta_lines]. rewrite step_hash by auto. cbn [bind].
  destruct (fill_list sk k l NL Wk C F (mkstate (Some (s_ sk)) (m_context m) (m_code m) (m_contexts m)) [] eq_refl) as [m' [E A]]; [cbn [m_context]; auto|].
  exists m'. split; [exact E|]. cbn [m_context] in A. rewrite D in A. exact A.
Qed.

(* ---- a whole context ---- *)
Definition okv (k : string) (v : option str) : list (string * str) := match v with Some x => [(k, x)] | None => [] end.
Lemma bangs_okv : forall k v, bangs (okv k v) = bang_opt k v.
Proof. intros k [v|]; reflexivity. Qed.
Lemma bangs_app : forall a b, bangs (a ++ b) = bangs a ++ bangs b.
Proof. intros a b. apply map_app. Qed.
Lemma bangs_cons : forall k v l, bangs ((k, v) :: l) = bang k v :: bangs l.
Proof. reflexivity. Qed.
Definition sub_kvs (c : context) := ("name", c_sname c) :: okv "institution" (c_institution c).
Definition tel_kvs (c : context) := ("design", c_design c) :: ("aperture", c_aperture c) :: ("detector", c_detector c) :: okv "name" (c_tname c) ++ okv "fRatio" (c_fratio c) ++ okv "filter" (c_filter c) ++ okv "arraySize" (c_array c) ++ okv "pixelSize" (c_pixel c).
Definition soft_kvs (w : software) := okv "astrometry" (w_astrometry w) ++ okv "fitOrder" (w_fit w) ++ okv "photometry" (w_photometry w) ++ okv "objectDetection" (w_detection w).
Definition soft_lines (c : context) := match c_software c with Some w => hash "software" :: bangs (soft_kvs w) | None => [] end.
Definition names_kvs (l : list str) : list (string * str) := map (fun v => ("name", v)) l.
Definition opt_names (k : string) (o : option (list str)) := match o with Some l => hash k :: bangs (names_kvs l) | None => [] end.
Definition fund_lines (c : context) := match c_funding c with Some v => [s_ "# fundingSource " ++ v] | None => [] end.
Definition comment_lines (c : context) := match c_comments c with Some (x :: l) => hash "comment" :: map (bang "line") (x :: l) | _ => [] end.
Lemma bangs_names : forall l, bangs (names_kvs l) = map (bang "name") l.
Proof. intros l. unfold bangs, names_kvs. rewrite map_map. reflexivity. Qed.
Lemma context_shape : forall c, context_lines c =
  hash "observatory" :: bang "mpcCode" (c_code c) :: bangs (okv "name" (c_oname c)) ++ (hash "submitter" :: bangs (sub_kvs c)) ++
  (hash "observers" :: map (bang "name") (c_observers c)) ++ (hash "measurers" :: map (bang "name") (c_measurers c)) ++ (hash "telescope" :: bangs (tel_kvs c)) ++
  soft_lines c ++ opt_names "coinvestigators" (c_coinvestigators c) ++ opt_names "collaborators" (c_collaborators c) ++ fund_lines c ++ comment_lines c.
Proof.
  intros c. unfold context_lines, sub_kvs, tel_kvs, soft_lines, soft_kvs, opt_names, fund_lines, comment_lines, names. rewrite !bangs_cons, !bangs_app, !bangs_okv.
  cbn [app]. rewrite <- !app_assoc. repeat (f_equal; [reflexivity|]).
  replace (match c_software c with Some w => hash "software" :: bangs (okv "astrometry" (w_astrometry w) ++ okv "fitOrder" (w_fit w) ++ okv "photometry" (w_photometry w) ++ okv "objectDetection" (w_detection w)) | None => [] end)
    with (match c_software c with Some w => hash "software" :: bang_opt "astrometry" (w_astrometry w) ++ bang_opt "fitOrder" (w_fit w) ++ bang_opt "photometry" (w_photometry w) ++ bang_opt "objectDetection" (w_detection w) | None => [] end)
    by (destruct (c_software c); auto; rewrite !bangs_app, !bangs_okv; reflexivity).
  replace (match c_coinvestigators c with Some l => hash "coinvestigators" :: bangs (names_kvs l) | None => [] end)
    with (match c_coinvestigators c with Some l => hash "coinvestigators" :: map (bang "name") l | None => [] end) by (destruct (c_coinvestigators c); auto; rewrite bangs_names; reflexivity).
  replace (match c_collaborators c with Some l => hash "collaborators" :: bangs (names_kvs l) | None => [] end)
    with (match c_collaborators c with Some l => hash "collaborators" :: map (bang "name") l | None => [] end) by (destruct (c_collaborators c); auto; rewrite bangs_names; reflexivity).
  reflexivity.
Qed.
(* lookups *)
Lemma sub_get : forall c, dget str_eqb (s_ "name") (dict_kvs (sub_kvs c) []) = Some (c_sname c) /\ dget str_eqb (s_ "institution") (dict_kvs (sub_kvs c) []) = c_institution c.
Proof. intros c. unfold sub_kvs. destruct (c_institution c); split; reflexivity. Qed.
Lemma tel_get : forall c, let d := dict_kvs (tel_kvs c) [] in let g k := dget str_eqb (s_ k) d in
  g "design" = Some (c_design c) /\ g "aperture" = Some (c_aperture c) /\ g "detector" = Some (c_detector c) /\ g "name" = c_tname c /\ g "fRatio" = c_fratio c /\
  g "filter" = c_filter c /\ g "arraySize" = c_array c /\ g "pixelSize" = c_pixel c.
Proof.
  intros c. cbv zeta. unfold tel_kvs. destruct (c_tname c), (c_fratio c), (c_filter c), (c_array c), (c_pixel c); repeat split; reflexivity.
Qed.
Definition soft_kept (o : option software) : option software := match o with Some (mksoftware None None None None) => None | x => x end.
Lemma soft_get : forall w, soft_kvs w <> [] -> let d := dict_kvs (soft_kvs w) [] in let g k := dget str_eqb (s_ k) d in
  d <> [] /\ Some (mksoftware (g "astrometry") (g "fitOrder") (g "photometry") (g "objectDetection")) = Some w /\ soft_kept (Some w) = Some w.
Proof.
  intros [[a|] [f|] [p|] [o|]] N; cbv zeta; try (exfalso; apply N; reflexivity); (split; [discriminate|split; reflexivity]).
Qed.
Lemma soft_none : forall w, soft_kvs w = [] -> soft_kept (Some w) = None.
Proof. intros [[a|] [f|] [p|] [o|]] N; try discriminate N. reflexivity. Qed.
Lemma okv_plain : forall k v, wordb (s_ k) = true -> str_eqb (s_ k) (s_ "mpcCode") = false -> (forall x, v = Some x -> plain_text x) -> Forall plain_kv (okv k v).
Proof. intros k [v|] W C P; constructor; [|constructor]. split; [apply wordb_ok; auto|]. split; [exact C|]. cbn [snd]. auto. Qed.
Lemma sec_neq : forall a b, str_eqb (s_ a) (s_ b) = false -> s_ a <> s_ b.
Proof. intros a b H E. rewrite E, str_eqb_refl in H. discriminate. Qed.
Lemma check_kept : forall c, check c = Ok c -> check (kept c) = Ok (kept c).
Proof.
  intros c. unfold check, kept. cbn [c_code c_oname c_sname c_institution c_observers c_measurers c_design c_aperture c_detector c_tname c_fratio c_filter c_array c_pixel c_software c_coinvestigators c_collaborators c_funding c_comments].
  destruct (positive (c_aperture c)) as [p1|]; cbn [bind]; [|discriminate]. destruct (opositive (c_fratio c)) as [p2|]; cbn [bind]; [|discriminate]. destruct (opositive (c_pixel c)) as [p3|]; cbn [bind]; [|discriminate].
  intros H. match type of H with (if ?b then _ else _) = _ => destruct b eqn:B; [|discriminate] end. rewrite !Bool.andb_true_iff in B. decompose [and] B. clear B.
  match goal with |- (if ?b then _ else _) = _ => assert (G : b = true); [|rewrite G; reflexivity] end. rewrite !Bool.andb_true_iff. repeat split; auto.
  - destruct (c_software c) as [[[a|] [f|] [p|] [o|]]|]; auto.
  - destruct (c_comments c); auto.
Qed.

(* the sections of a header and the context they give *)
Definition gives (h : header) (c : context) : Prop :=
  (exists d, dlook h "observatory" = Some (SDict d) /\ dget str_eqb (s_ "mpcCode") d = Some (c_code c) /\ dget str_eqb (s_ "name") d = c_oname c) /\
  dlook h "submitter" = Some (SDict (dict_kvs (sub_kvs c) [])) /\ dlook h "observers" = Some (SList [(s_ "name", c_observers c)]) /\ dlook h "measurers" = Some (SList [(s_ "name", c_measurers c)]) /\
  dlook h "telescope" = Some (SDict (dict_kvs (tel_kvs c) [])) /\
  dlook h "software" = match c_software c with Some w => match soft_kvs w with [] => None | _ => Some (SDict (dict_kvs (soft_kvs w) [])) end | None => None end /\
  dlook h "fundingSource" = option_map SText (c_funding c) /\
  dlook h "comment" = match c_comments c with Some (x :: l) => Some (SList [(s_ "line", x :: l)]) | _ => None end.
Lemma build_gives : forall h c, gives h c -> check c = Ok c -> build h = Ok (kept c).
Proof.
  intros h c ((d & H1 & H1a & H1b) & H2 & H3 & H4 & H5 & H6 & H7 & H8) CH. unfold dlook in *. unfold build, section_of. rewrite H1, H2, H3, H4, H5, H6, H7, H8. clear H1 H2 H3 H4 H5 H6 H7 H8.
  destruct (sub_get c) as [S1 S2]. destruct (tel_get c) as (T1 & T2 & T3 & T4 & T5 & T6 & T7 & T8). cbv zeta.
  cbn [dict_of bind]. unfold need, list_of. rewrite H1a. cbn [bind]. rewrite S1. cbn [bind dict_of]. rewrite T1. cbn [bind]. rewrite T2. cbn [bind]. rewrite T3. cbn [bind].
  assert (SW : exists w, match match c_software c with Some w => match soft_kvs w with [] => None | _ => Some (SDict (dict_kvs (soft_kvs w) [])) end | None => None end with
      | None => Ok [] | Some (SText []) => Ok [] | x => dict_of x end = Ok w /\
      match w with [] => None | _ => Some (mksoftware (dget str_eqb (s_ "astrometry") w) (dget str_eqb (s_ "fitOrder") w) (dget str_eqb (s_ "photometry") w) (dget str_eqb (s_ "objectDetection") w)) end
       = soft_kept (c_software c)).
  { destruct (c_software c) as [w|]; [|exists []; split; reflexivity]. pose proof (soft_get w) as G. pose proof (soft_none w) as G0. destruct (soft_kvs w) as [|kv l] eqn:E.
    - exists []. split; [reflexivity|]. rewrite (G0 eq_refl). reflexivity.
    - destruct G as (G1 & G2 & G3); [intros X; discriminate X|]. exists (dict_kvs (kv :: l) []). split; [reflexivity|]. rewrite G3, <- G2. destruct (dict_kvs (kv :: l) []); [congruence|reflexivity]. }
  destruct SW as [w [SW1 SW2]]. cbn [dict_of] in SW1. rewrite SW1. cbn [bind]. cbn [dget]. rewrite !str_eqb_refl. cbn [bind].
  assert (FU : match option_map SText (c_funding c) with None => Ok None | Some (SText v) => Ok (Some v) | Some _ => Err TypeError end = Ok (c_funding c)) by (destruct (c_funding c); reflexivity).
  rewrite FU. cbn [bind].
  assert (CO : match match c_comments c with Some (x :: l) => Some (SList [(s_ "line", x :: l)]) | _ => None end with
     | None => Ok [] | Some (SList d) => Ok match dget str_eqb (s_ "line") d with Some l => l | None => [] end | Some _ => Err TypeError end = Ok match c_comments c with Some l => l | None => [] end)
    by (destruct (c_comments c) as [[|x l]|]; reflexivity).
  rewrite CO. cbn [bind]. rewrite H1b, S2, T4, T5, T6, T7, T8, SW2.
  match goal with |- check ?x = _ => replace x with (kept c); [exact (check_kept c CH)|] end. unfold kept, soft_kept.
  destruct (c_software c) as [[[?|] [?|] [?|] [?|]]|], (c_comments c); reflexivity.
Qed.

Lemma opt_block : forall sk o m, header_ok sk = true -> is_list_section (Some (s_ sk)) = false -> (forall l, o = Some l -> Forall plain_text l) -> dlook (m_context m) sk = None ->
  exists m' s, meta_lines m (map strip (opt_names sk o)) = Ok m' /\ after m m' sk s.
Proof.
  intros sk [l|] m H N P D; [|exists m, None; split; [reflexivity|repeat split; auto; intros k' _; reflexivity]].
  destruct (dict_block sk (names_kvs l) m H N) as [m' [E A]]; [|exact D|eexists _, _; split; [exact E|exact A]].
  apply Forall_forall. intros kv Hk. unfold names_kvs in Hk. apply in_map_iff in Hk. destruct Hk as [v [<- Hv]]. specialize (P l eq_refl). rewrite Forall_forall in P.
  split; [apply (wordb_ok (s_ "name")); reflexivity|]. split; [reflexivity|]. exact (P v Hv).
Qed.
Ltac far := first [reflexivity | apply sec_neq; reflexivity].
Lemma context_block : forall c m cs, plain_context c -> check c = Ok c -> flush m = Ok cs ->
  exists m', meta_lines m (map strip (context_lines c)) = Ok m' /\ flush m' = Ok (dset oeqb (Some (c_code c)) (kept c) cs).
Proof.
  intros c m cs [(H1 & H2 & H3 & H4 & H5 & H6 & H7 & H8 & H9 & H10 & H11 & H12 & H13 & H14 & H15 & H16 & H17 & H18 & H19) NF] CH FL.
  assert (NE : c_observers c <> [] /\ c_measurers c <> []).
  { unfold check in CH. destruct (positive _); cbn [bind] in CH; [|discriminate]. destruct (opositive _); cbn [bind] in CH; [|discriminate]. destruct (opositive _); cbn [bind] in CH; [|discriminate].
    match type of CH with (if ?b then _ else _) = _ => destruct b eqn:B; [|discriminate] end. rewrite !Bool.andb_true_iff in B. decompose [and] B. split; intros X; rewrite X in *; discriminate. }
  rewrite context_shape. cbn [map]. cbn [meta_lines]. rewrite (step_observatory m cs FL). cbn [bind].
  rewrite (step_dict _ "observatory" "mpcCode" (c_code c) []); [|apply (wordb_ok (s_ "mpcCode")); reflexivity|exact H1|reflexivity|reflexivity|reflexivity]. cbn [bind m_context m_code m_contexts].
  change (code_of "mpcCode" (c_code c) None) with (Some (c_code c)).
  set (m0 := mkstate _ _ _ _). rewrite !map_app.
  destruct (fill_dict "observatory" (okv "name" (c_oname c)) eq_refl (okv_plain "name" (c_oname c) eq_refl eq_refl H2) m0 [(s_ "mpcCode", c_code c)] eq_refl) as [m1 [E1 (A1 & O1 & C1 & D1)]].
  { unfold m0. cbn [m_context]. rewrite dlook_dset. reflexivity. }
  rewrite meta_lines_app, E1. cbn [bind].
  assert (Z0 : forall k, s_ k <> s_ "observatory" -> dlook (m_context m0) k = None).
  { intros k N. unfold m0. cbn [m_context]. rewrite (others_dset [] "observatory" _ k N). reflexivity. }
  destruct (dict_block "submitter" (sub_kvs c) m1 eq_refl eq_refl) as [m2 [E2 (A2 & O2 & C2 & D2)]].
  { unfold sub_kvs. constructor; [split; [apply (wordb_ok (s_ "name")); reflexivity|split; [reflexivity|exact H3]]|]. apply okv_plain; auto. }
  { rewrite O1 by far. apply Z0. far. }
  rewrite meta_lines_app, E2. cbn [bind].
  destruct (list_block "observers" "name" (c_observers c) m2 eq_refl eq_refl (wordb_ok (s_ "name") eq_refl) eq_refl H5) as [m3 [E3 (A3 & O3 & C3 & D3)]].
  { rewrite O2, O1 by far. apply Z0. far. }
  rewrite meta_lines_app, E3. cbn [bind].
  destruct (list_block "measurers" "name" (c_measurers c) m3 eq_refl eq_refl (wordb_ok (s_ "name") eq_refl) eq_refl H6) as [m4 [E4 (A4 & O4 & C4 & D4)]].
  { rewrite O3, O2, O1 by far. apply Z0. far. }
  rewrite meta_lines_app, E4. cbn [bind].
  destruct (dict_block "telescope" (tel_kvs c) m4 eq_refl eq_refl) as [m5 [E5 (A5 & O5 & C5 & D5)]].
  { unfold tel_kvs. repeat (constructor; [split; [apply wordb_ok; reflexivity|split; [reflexivity|assumption]]|]). repeat (apply Forall_app; split; [apply okv_plain; auto|]). apply okv_plain; auto. }
  { rewrite O4, O3, O2, O1 by far. apply Z0. far. }
  rewrite meta_lines_app, E5. cbn [bind].
  assert (SO : exists m6, meta_lines m5 (map strip (soft_lines c)) = Ok m6 /\ after m5 m6 "software"
    (match c_software c with Some w => match soft_kvs w with [] => None | _ => Some (SDict (dict_kvs (soft_kvs w) [])) end | None => None end)).
  { assert (ZZ : dlook (m_context m5) "software" = None) by (rewrite O5, O4, O3, O2, O1 by far; apply Z0; far).
    unfold soft_lines. destruct (c_software c) as [w|]; [|exists m5; split; [reflexivity|repeat split; auto; intros k' _; reflexivity]]. destruct (H15 w eq_refl) as (W1 & W2 & W3 & W4).
    apply dict_block; [reflexivity|reflexivity| |exact ZZ]. unfold soft_kvs. repeat (apply Forall_app; split; [apply okv_plain; auto|]). apply okv_plain; auto. }
  destruct SO as [m6 [E6 (A6 & O6 & C6 & D6)]]. rewrite meta_lines_app, E6. cbn [bind].
  destruct (opt_block "coinvestigators" (c_coinvestigators c) m6 eq_refl eq_refl H16) as [m7 [s7 [E7 (A7 & O7 & C7 & D7)]]].
  { rewrite O6, O5, O4, O3, O2, O1 by far. apply Z0. far. }
  rewrite meta_lines_app, E7. cbn [bind].
  destruct (opt_block "collaborators" (c_collaborators c) m7 eq_refl eq_refl H17) as [m8 [s8 [E8 (A8 & O8 & C8 & D8)]]].
  { rewrite O7, O6, O5, O4, O3, O2, O1 by far. apply Z0. far. }
  rewrite meta_lines_app, E8. cbn [bind].
  assert (FU : exists m9, meta_lines m8 (map strip (fund_lines c)) = Ok m9 /\ after m8 m9 "fundingSource" (option_map SText (c_funding c))).
  { assert (ZZ : dlook (m_context m8) "fundingSource" = None) by (rewrite O8, O7, O6, O5, O4, O3, O2, O1 by far; apply Z0; far).
    unfold fund_lines. destruct (c_funding c) as [v|]; [|exists m8; split; [reflexivity|repeat split; auto; intros k' _; reflexivity]].
    cbn [map meta_lines]. rewrite step_funding; [|apply H18; reflexivity|intros X; apply NF; rewrite X; reflexivity]. cbn [bind]. eexists. split; [reflexivity|]. cbn [m_context]. split; [apply dlook_dset|]. split; [apply others_dset|split; reflexivity]. }
  destruct FU as [m9 [E9 (A9 & O9 & C9 & D9)]]. rewrite (meta_lines_app (map strip (fund_lines c))). rewrite E9. cbn [bind].
  assert (CO : exists mx, meta_lines m9 (map strip (comment_lines c)) = Ok mx /\ after m9 mx "comment" (match c_comments c with Some (x :: l) => Some (SList [(s_ "line", x :: l)]) | _ => None end)).
  { assert (ZZ : dlook (m_context m9) "comment" = None) by (rewrite O9, O8, O7, O6, O5, O4, O3, O2, O1 by far; apply Z0; far).
    unfold comment_lines. destruct (c_comments c) as [[|x l]|]; try (exists m9; split; [reflexivity|repeat split; auto; intros k' _; reflexivity]).
    destruct (list_block "comment" "line" (x :: l) m9 eq_refl eq_refl (wordb_ok (s_ "line") eq_refl) eq_refl (H19 _ eq_refl) ZZ) as [mx [EX AX]]. exists mx. split; [exact EX|exact AX]. }
  destruct CO as [mx [EX (AX & OX & CX & DX)]]. exists mx. split; [exact EX|].
  assert (GV : gives (m_context mx) c).
  { split.
    - exists (dict_kvs (okv "name" (c_oname c)) [(s_ "mpcCode", c_code c)]). split; [|destruct (c_oname c); split; reflexivity].
      rewrite OX, O9, O8, O7, O6, O5, O4, O3, O2, A1 by far. destruct (c_oname c); [reflexivity|]. unfold okv. unfold m0. cbn [m_context]. apply dlook_dset.
    - split; [rewrite OX, O9, O8, O7, O6, O5, O4, O3, A2 by far; reflexivity|].
      split; [rewrite OX, O9, O8, O7, O6, O5, O4, A3 by far; destruct (c_observers c); [destruct NE; congruence|reflexivity]|].
      split; [rewrite OX, O9, O8, O7, O6, O5, A4 by far; destruct (c_measurers c); [destruct NE; congruence|reflexivity]|].
      split; [rewrite OX, O9, O8, O7, O6, A5 by far; reflexivity|].
      split; [rewrite OX, O9, O8, O7, A6 by far; reflexivity|].
      split; [rewrite OX, A9 by far; reflexivity|]. exact AX. }
  pose proof (build_gives _ _ GV CH) as BG. unfold flush. destruct (m_context mx) as [|e h] eqn:EM; [destruct GV as [[d [X _]] _]; discriminate X|].
  rewrite BG. cbn [bind]. rewrite CX, C9, C8, C7, C6, C5, C4, C3, C2, C1, DX, D9, D8, D7, D6, D5, D4, D3, D2, D1. unfold m0. reflexivity.
Qed.

(* ---- the file ---- *)
Lemma data_line : forall l m, is_meta l = false -> meta_line m l = Ok m.
Proof.
  intros [|c l] m H; auto. unfold meta_line. destruct (Ascii.eqb c "#") eqn:E1; [apply Ascii.eqb_eq in E1; subst; discriminate H|].
  destruct (Ascii.eqb c "!") eqn:E2; [apply Ascii.eqb_eq in E2; subst; discriminate H|]. reflexivity.
Qed.
Lemma data_lines : forall ls m, Forall (fun l => is_meta l = false) ls -> meta_lines m ls = Ok m.
Proof. intros ls m F. induction F as [|l ls H F IH]; auto. cbn [meta_lines]. rewrite data_line by auto. exact IH. Qed.
Lemma plain_one_line : forall c, plain_context c -> one_line c.
Proof.
  assert (P : forall v, plain_text v -> ~ In "010"%char v).
  { intros v [F _] I. rewrite Forall_forall in F. destruct (F _ I) as [X|X]; [discriminate|]. apply X. apply white_is. reflexivity. }
  assert (L : forall l, Forall plain_text l -> Forall (fun s => ~ In "010"%char s) l) by (intros l; apply Forall_impl; exact P).
  intros c [(H1 & H2 & H3 & H4 & H5 & H6 & H7 & H8 & H9 & H10 & H11 & H12 & H13 & H14 & H15 & H16 & H17 & H18 & H19) _]. unfold one_line, strings_of.
  repeat (split; [first [apply P; assumption|intros x E; apply P; auto|apply L; assumption|intros x E; apply L; auto|intros w Ew; destruct (H15 w Ew) as (W1 & W2 & W3 & W4); repeat split; intros x E; apply P; auto]|]).
  intros x E; apply L; auto.
Qed.
Section CtxFile.
Variables (show : row -> str) (read : str -> result row) (again : row -> row).
Hypothesis ST : stamps show read again.
Definition add_ctx (ctxs : list (str * context)) (cs : list (option str * context)) (s : str) : list (option str * context) :=
  match dget str_eqb s ctxs with Some c => dset oeqb (Some s) (kept c) cs | None => cs end.
Definition ctx_good (ctxs : list (str * context)) (s : str) : Prop := exists c, dget str_eqb s ctxs = Some c /\ c_code c = s /\ plain_context c /\ check c = Ok c.
Lemma contexts_lines : forall obs ctxs ss m cs, (forall s, In s ss -> good_rows (rows_of obs s) /\ ctx_good ctxs s) -> flush m = Ok cs ->
  exists m', meta_lines m (file_lines show obs ctxs ss) = Ok m' /\ flush m' = Ok (fold_left (add_ctx ctxs) ss cs).
Proof.
  intros obs ctxs ss. induction ss as [|s ss IH]; intros m cs G FL; [exists m; split; [reflexivity|exact FL]|].
  destruct (G s (or_introl eq_refl)) as [GR [c [D [CC [PC CK]]]]]. rewrite file_cons, meta_lines_app. unfold ctx_lines. rewrite D.
  destruct (context_block c m cs PC CK FL) as [m1 [E1 F1]]. rewrite E1. cbn [bind]. rewrite meta_lines_app, data_lines.
  - cbn [bind fold_left]. unfold add_ctx at 2. rewrite D. rewrite CC in F1. apply IH; [intros; apply G; right; assumption|exact F1].
  - eapply Forall_impl; [|apply (block_clean show read again ST _ GR)]. intros l (_ & _ & _ & H). exact H.
Qed.
Lemma fold_add : forall ctxs ss cs, (forall s, In s ss -> ctx_good ctxs s) -> NoDup ss -> (forall s, In s ss -> ~ In (Some s) (map fst cs)) ->
  exists l, fold_left (add_ctx ctxs) ss cs = cs ++ l /\ Forall2 (fun s e => exists c, dget str_eqb s ctxs = Some c /\ e = (Some s, kept c)) ss l.
Proof.
  intros ctxs ss. induction ss as [|s ss IH]; intros cs G ND N; [exists []; split; [symmetry; apply app_nil_r|constructor]|].
  destruct (G s (or_introl eq_refl)) as [c [D _]]. inversion ND; subst. cbn [fold_left]. unfold add_ctx at 2. rewrite D.
  rewrite dset_new by (apply (dget_none oeqb oeqb_eq); apply N; left; reflexivity).
  destruct (IH (cs ++ [(Some s, kept c)])) as [l [E F]]; auto.
  - intros s' Is'. apply G. right. exact Is'.
  - intros s' Is'. rewrite map_app. intros I. apply in_app_or in I. destruct I as [I|[I|[]]]; [exact (N s' (or_intror Is') I)|]. cbn in I. congruence.
  - exists ((Some s, kept c) :: l). split; [rewrite E, <- app_assoc; reflexivity|]. constructor; eauto.
Qed.
Lemma contexts_back : forall obs ctxs text, (forall a, In a obs -> safe_row a /\ numbers_ok a) -> uniform_numbers obs ->
  (forall s c, dget str_eqb s ctxs = Some c -> c_code c = s /\ plain_context c /\ check c = Ok c) -> write show default_precision obs ctxs = Ok text ->
  exists l, read_contexts text = Ok l /\ Forall2 (fun s e => exists c, dget str_eqb s ctxs = Some c /\ e = (Some s, kept c)) (stations obs) l.
Proof.
  intros obs ctxs text A U C W. apply write_lines in W. destruct W as [W ->].
  assert (G : forall s, In s (stations obs) -> good_rows (rows_of obs s)) by (intros s Is; apply obs_good; auto; apply W; auto).
  assert (GC : forall s, In s (stations obs) -> ctx_good ctxs s).
  { intros s Is. destruct (W s Is) as [[c D] _]. exists c. split; auto. }
  unfold read_contexts. rewrite (text_lines_file show read again ST) by (auto; intros s c D; apply plain_one_line; apply (C s c D)).
  cbn [meta_lines]. change (meta_line (mkstate None [] None []) (s_ "# version=2022")) with (Ok (mkstate None [] None [])). cbn [bind].
  destruct (contexts_lines obs ctxs (stations obs) (mkstate None [] None []) [] (fun s Is => conj (G s Is) (GC s Is)) eq_refl) as [m' [E F]]. rewrite E. cbn [bind]. rewrite F.
  destruct (fold_add ctxs (stations obs) [] GC (stations_NoDup obs)) as [l [EL FL]]; [intros s Is X; destruct X|]. exists l. split; [rewrite EL; reflexivity|exact FL].
Qed.
End CtxFile.

Lemma stations_slt : forall obs, StronglySorted slt (stations obs).
Proof.
  intros obs. pose proof (stations_NoDup obs) as ND.
  assert (SS : StronglySorted (fun a b => sleb a b = true) (stations obs)).
  { unfold stations. eapply ssorted_impl; [|apply (sort_sorted sleb sleb_total sleb_trans)]. intros x y _ _ H. exact H. }
  revert ND. induction SS as [|k ks SS IH F]; intros ND; constructor; inversion ND; subst; auto. rewrite Forall_forall in *. intros y Hy. destruct (sleb_slt _ _ (F y Hy)); [congruence|auto].
Qed.
Lemma dget_NoDup : forall V (d : list (str * V)) k v, NoDup (map fst d) -> (dget str_eqb k d = Some v <-> In (k, v) d).
Proof.
  intros V d k v ND. split; [apply dget_In|]. induction d as [|[k' w] d IH]; [intros []|]. cbn in *. inversion ND; subst. intros [E|I].
  - injection E as -> ->. rewrite str_eqb_refl. reflexivity.
  - destruct (str_eqb k k') eqn:E; [|auto]. apply str_eqb_eq in E. subst. exfalso. apply H1. apply in_map_iff. exists (k', v). auto.
Qed.
Lemma whole_kept : forall c, whole c -> kept c = c.
Proof.
  intros [code oname sname inst obs mea des ap det tn fr fi ar pi so ci co fu cm] (W1 & W2 & W3 & W4). cbn in *. subst. unfold kept. cbn.
  destruct cm; [|congruence]. destruct so as [[[?|] [?|] [?|] [?|]]|]; try reflexivity. congruence.
Qed.
Section Main.
Variables (show : row -> str) (read : str -> result row) (again : row -> row).
Lemma round_trip : stamps show read again -> forall obs ctxs text, Forall safe_row obs -> Forall numbers_ok obs -> uniform_numbers obs -> NoDup (map fst ctxs) ->
  (forall s c, In (s, c) ctxs -> one_line c) -> write show default_precision obs ctxs = Ok text ->
  exists sorted l, Permutation sorted obs /\ StronglySorted before sorted /\ read_observations read text = Ok l /\ Forall2 (reread again) sorted l.
Proof.
  intros ST obs ctxs text S N U ND C W. destruct (written_read_back show read again ST obs ctxs text) as [l [R F]]; auto.
  - rewrite Forall_forall in *. intros a Ia. auto.
  - intros s c D. apply (C s c). apply dget_In. exact D.
  - exists (arrangement obs), l. repeat split; auto; [apply arrangement_perm|apply arrangement_sorted].
Qed.
Lemma contexts_trip : stamps show read again -> forall obs ctxs text, Forall safe_row obs -> Forall numbers_ok obs -> uniform_numbers obs -> NoDup (map fst ctxs) ->
  (forall s c, In (s, c) ctxs -> c_code c = s /\ plain_context c /\ check c = Ok c) -> write show default_precision obs ctxs = Ok text ->
  exists ss l, StronglySorted slt ss /\ (forall s, In s ss <-> observed obs s) /\ read_contexts text = Ok l /\
    Forall2 (fun s e => exists c, In (s, c) ctxs /\ e = (Some s, kept c) /\ (whole c -> kept c = c)) ss l.
Proof.
  intros ST obs ctxs text S N U ND C W. destruct (contexts_back show read again ST obs ctxs text) as [l [R F]]; auto.
  - rewrite Forall_forall in *. intros a Ia. auto.
  - intros s c D. apply (C s c). apply dget_In. exact D.
  - exists (stations obs), l. split; [apply stations_slt|]. split; [apply stations_In|]. split; auto. clear -F. induction F as [|s e ss l [c [D ->]] F IH]; constructor; auto. exists c. split; [apply dget_In; auto|]. split; auto. apply whole_kept.
Qed.
Lemma write_iff : forall prec obs ctxs, NoDup (map fst ctxs) ->
  ((exists text, write show prec obs ctxs = Ok text) <->
   forall s, observed obs s -> (exists c, In (s, c) ctxs) /\ exists a, In a obs /\ a_stn a = s /\ identified a) /\
  forall e, write show prec obs ctxs = Err e -> e = ValueError.
Proof.
  intros prec obs ctxs ND. split; [|apply write_err]. split.
  - intros [text W] s O. apply write_lines in W. destruct W as [W _]. apply stations_In in O. destruct (W s O) as [[c D] H]. split; [exists c; apply dget_In; auto|exact H].
  - intros H. eexists. apply write_lines. split; [|reflexivity]. intros s Is. apply stations_In in Is. destruct (H s Is) as [[c D] X]. split; [exists c; apply dget_NoDup; auto|exact X].
Qed.
End Main.

Lemma whole_trip : forall show read again, stamps show read again -> forall obs ctxs text,
  Forall safe_row obs -> Forall numbers_ok obs -> uniform_numbers obs -> NoDup (map fst ctxs) ->
  (forall s c, In (s, c) ctxs -> c_code c = s /\ plain_context c /\ check c = Ok c) -> (forall s c, In (s, c) ctxs -> whole c) ->
  write show default_precision obs ctxs = Ok text ->
  exists ss l, StronglySorted slt ss /\ (forall s, In s ss <-> observed obs s) /\ read_contexts text = Ok l /\ Forall2 (fun s e => exists c, In (s, c) ctxs /\ e = (Some s, c)) ss l.
Proof.
  intros show read again ST obs ctxs text S N U ND C WH W. destruct (contexts_trip show read again ST obs ctxs text S N U ND C W) as (ss & l & A & B & R & F).
  exists ss, l. repeat split; auto; try apply B. clear - F WH. induction F as [|s e ss l [c [I [-> K]]] F IH]; constructor; auto. exists c. split; auto. rewrite K; [reflexivity|]. eapply WH; eauto.
Qed.

(* checkers for the examples *)
Definition trimb (s : str) : bool := match s with [] => true | c :: _ => negb (is_space c) end && match rev s with [] => true | c :: _ => negb (is_space c) end.
Lemma trimb_ok : forall s, trimb s = true -> trimmed s.
Proof.
  intros s H. apply Bool.andb_true_iff in H. destruct H as [A B]. apply trimmed_hd. split; intros c E.
  - destruct s; [discriminate|]. injection E as ->. apply white_not. apply Bool.negb_true_iff. exact A.
  - destruct (rev s); [discriminate|]. injection E as ->. apply white_not. apply Bool.negb_true_iff. exact B.
Qed.
Definition safeb (s : str) : bool := negb (str_eqb s []) && trimb s && negb (existsb special s) && negb (is_header s).
Lemma safeb_ok : forall s, safeb s = true -> safe s.
Proof.
  intros s H. unfold safeb in H. rewrite !Bool.andb_true_iff, !Bool.negb_true_iff in H. destruct H as [[[A B] C] D]. split; [intros ->; discriminate|]. split; [apply trimb_ok; auto|]. split.
  - apply Forall_forall. intros c Hc I. assert (X : existsb special s = true) by (apply existsb_exists; exists c; split; auto; cbn in I; destruct I as [<-|[<-|[<-|[<-|[]]]]]; reflexivity). congruence.
  - intros k K O. assert (is_header s = true) by (apply is_header_iff; eauto). congruence.
Qed.
Definition osafeb (o : option str) : bool := match o with Some s => safeb s | None => true end.
Definition idb (o : option str) : bool := match o with Some s => safeb s && negb (is_meta s) | None => true end.
Lemma osafeb_ok : forall o, osafeb o = true -> osafe o.
Proof. intros [s|] H x E; [injection E as <-; apply safeb_ok; auto|discriminate]. Qed.
Lemma idb_ok : forall o, idb o = true -> id_safe o.
Proof.
  intros [s|] H x E; [injection E as <-|discriminate]. apply Bool.andb_true_iff in H. destruct H as [A B]. split; [apply safeb_ok; auto|]. apply Bool.negb_true_iff in B.
  intros c r ->. split; intros ->; discriminate B.
Qed.
Definition rowb (a : ades) : bool :=
  idb (a_perm a) && idb (a_prov a) && idb (a_trk a) && osafeb (a_sub a) && osafeb (a_band a) && safeb (a_stn a) && safeb (a_mode a) && safeb (a_cat a) && osafeb (a_phot a) && osafeb (a_remarks a).
Lemma rowb_ok : forall l, forallb rowb l = true -> Forall safe_row l.
Proof.
  intros l H. rewrite forallb_forall in H. apply Forall_forall. intros a Ia. specialize (H a Ia). unfold rowb in H. rewrite !Bool.andb_true_iff in H. decompose [and] H.
  unfold safe_row. repeat (match goal with |- _ /\ _ => split end; [first [apply idb_ok; assumption|apply osafeb_ok; assumption|apply safeb_ok; assumption]|]). apply osafeb_ok; assumption.
Qed.
Definition finb (x : fval) : bool := match x with FNum q => Qle_bool (- inject_Z (10 ^ 300)) q && Qle_bool q (inject_Z (10 ^ 300)) | _ => false end.
Definition ofinb (x : option fval) : bool := match x with Some v => finb v | None => true end.
Definition rmsb (x : option fval) : bool := match x with Some (FNum q) => Qle_bool (1 # 100000) q && Qle_bool q 99 | Some _ => false | None => true end.
Lemma finb_ok : forall x, finb x = true -> finite x.
Proof. intros [q| |] H; try discriminate. apply Bool.andb_true_iff in H. rewrite !Qle_bool_iff in H. exists q. auto. Qed.
Lemma ofinb_ok : forall x, ofinb x = true -> ofinite x.
Proof. intros [x|] H v E; [injection E as <-; apply finb_ok; auto|discriminate]. Qed.
Lemma rmsb_ok : forall x, rmsb x = true -> orms x.
Proof. intros [[q| |]|] H v E; try discriminate. injection E as <-. apply Bool.andb_true_iff in H. rewrite !Qle_bool_iff in H. exists q. auto. Qed.
Definition numsb (a : ades) : bool :=
  finb (a_ra a) && finb (a_dec a) && rmsb (a_rmsra a) && rmsb (a_rmsdec a) && ofinb (a_rmstime a) && ofinb (a_corr a) && ofinb (a_mag a) && ofinb (a_rmsmag a) &&
  ofinb (a_snr a) && ofinb (a_seeing a) && ofinb (a_exp a).
Lemma numsb_ok : forall l, forallb numsb l = true -> Forall numbers_ok l.
Proof.
  intros l H. rewrite forallb_forall in H. apply Forall_forall. intros a Ia. specialize (H a Ia). unfold numsb in H. rewrite !Bool.andb_true_iff in H. decompose [and] H.
  unfold numbers_ok. repeat (match goal with |- _ /\ _ => split end; [first [apply finb_ok; assumption|apply ofinb_ok; assumption|apply rmsb_ok; assumption]|]). apply ofinb_ok; assumption.
Qed.
Definition plainb (v : str) : bool := forallb (fun c => Ascii.eqb c " " || negb (is_space c)) v && match rev v with c :: _ => negb (Ascii.eqb c " ") | [] => true end.
Lemma plainb_ok : forall v, plainb v = true -> plain_text v.
Proof.
  intros v H. apply Bool.andb_true_iff in H. destruct H as [A B]. split.
  - rewrite forallb_forall in A. apply Forall_forall. intros c Hc. specialize (A c Hc). apply Bool.orb_true_iff in A. destruct A as [A|A]; [left; apply Ascii.eqb_eq; auto|right; apply white_not, Bool.negb_true_iff; auto].
  - intros r ->. rewrite rev_app_distr in B. discriminate B.
Qed.
Definition ob_ (f : str -> bool) (o : option str) := match o with Some x => f x | None => true end.
Definition obl_ (f : str -> bool) (o : option (list str)) := match o with Some x => forallb f x | None => true end.
Definition ctxb (f : str -> bool) (c : context) : bool :=
  f (c_code c) && ob_ f (c_oname c) && f (c_sname c) && ob_ f (c_institution c) && forallb f (c_observers c) && forallb f (c_measurers c) && f (c_design c) && f (c_aperture c) && f (c_detector c) &&
  ob_ f (c_tname c) && ob_ f (c_fratio c) && ob_ f (c_filter c) && ob_ f (c_array c) && ob_ f (c_pixel c) &&
  match c_software c with Some w => ob_ f (w_astrometry w) && ob_ f (w_fit w) && ob_ f (w_photometry w) && ob_ f (w_detection w) | None => true end &&
  obl_ f (c_coinvestigators c) && obl_ f (c_collaborators c) && ob_ f (c_funding c) && obl_ f (c_comments c).
Lemma ctxb_ok : forall f (P : str -> Prop) c, (forall v, f v = true -> P v) -> ctxb f c = true -> strings_of c P.
Proof.
  intros f P c FP H. unfold ctxb in H. rewrite !Bool.andb_true_iff in H. decompose [and] H. clear H.
  assert (O : forall o, ob_ f o = true -> forall x, o = Some x -> P x) by (intros o E x ->; auto).
  assert (L : forall l, forallb f l = true -> Forall P l) by (intros l E; rewrite forallb_forall in E; apply Forall_forall; auto).
  assert (OL : forall o, obl_ f o = true -> forall x, o = Some x -> Forall P x) by (intros o E x ->; auto).
  unfold strings_of. cbv zeta. repeat (match goal with |- _ /\ _ => split end; [first [apply FP; assumption|apply O; assumption|apply L; assumption|apply OL; assumption|idtac]|]); [|apply OL; assumption].
  intros w E. match goal with X : match c_software c with _ => _ end = true |- _ => rewrite E in X; rewrite !Bool.andb_true_iff in X; decompose [and] X end. repeat split; apply O; assumption.
Qed.
Definition lineb (v : str) : bool := negb (existsb (Ascii.eqb "010") v).
Lemma lineb_ok : forall v, lineb v = true -> ~ In "010"%char v.
Proof. intros v H I. apply Bool.negb_true_iff in H. assert (existsb (Ascii.eqb "010") v = true) by (apply existsb_exists; exists "010"%char; auto). congruence. Qed.
Definition stampb (c : ascii) : bool := ((48 <=? nat_of_ascii c) && (nat_of_ascii c <=? 57))%nat || existsb (Ascii.eqb c) ["-"; ":"; "T"; "."]%char.
Lemma stampb_ok : forall l, forallb stampb l = true -> Forall stamp_char l.
Proof.
  intros l H. rewrite forallb_forall in H. apply Forall_forall. intros c Hc. specialize (H c Hc). unfold stampb in H. apply Bool.orb_true_iff in H. destruct H as [H|H].
  - left. apply Bool.andb_true_iff in H. unfold code. rewrite !Nat.leb_le in H. exact H.
  - right. apply existsb_exists in H. destruct H as [x [I E]]. apply Ascii.eqb_eq in E. subst x. exact I.
Qed.
