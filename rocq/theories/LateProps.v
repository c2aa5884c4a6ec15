(* Properties C275-C277: the older SBDB query, the risk corridor and the perceptual colour scale. *)
From Coq Require Import QArith Qround ZArith String List Bool Lia Lqa.
From Verif Require Import Base ListLemmas ResModel CovModel TimeModel SbdbModel LateModel LateSpec.
Import ListNotations.
Open Scope string_scope.
Open Scope list_scope.

(* ---- C275 ---- *)
Lemma get_has : forall k o, get k o <> JNull -> has k o = true.
Proof.
  intros k o. unfold get, has. induction o as [|p o IH]; cbn; [congruence|]. destruct (String.eqb (fst p) k); [reflexivity|exact IH].
Qed.
Lemma or_empty_obj : forall o k s, get k o = JStr s -> or_empty (JObj o) = Ok o.
Proof. intros [|p o] k s H; [cbn in H; discriminate|reflexivity]. Qed.
Lemma or_empty_same : forall o, or_empty (JObj o) = Ok o.
Proof. intros [|p o]; reflexivity. Qed.
Lemma labels_of : forall text ls, map (str_of_json text) (firstn 6 (map JStr ls)) = firstn 6 ls.
Proof. intros text ls. rewrite firstn_map, map_map. apply map_id. Qed.
Lemma mapM_agree : forall (f g : string -> result num) l v, (forall n w, In n l -> f n = Ok w -> g n = Ok w) -> mapM f l = Ok v -> mapM g l = Ok v.
Proof.
  intros f g. induction l as [|n l IH]; intros v A H; cbn in *; [exact H|].
  destruct (f n) as [w|] eqn:F; [|discriminate]. cbn [bind] in H. destruct (mapM f l) as [ws|] eqn:M; [|discriminate]. cbn [bind] in H.
  rewrite (A n w (or_introl eq_refl) F). cbn [bind]. rewrite (IH ws); [exact H| |reflexivity]. intros; apply A; [right|]; assumption.
Qed.
Lemma mapM_map : forall A B C (f : B -> result C) (g : A -> B) l, mapM f (map g l) = mapM (fun x => f (g x)) l.
Proof. intros A B C f g. induction l as [|x l IH]; [reflexivity|]. cbn. rewrite IH. reflexivity. Qed.
Lemma matrix_size : forall parse j m, matrix_of parse j = Ok m -> (6 <= List.length m)%nat /\ (6 <= List.length (hd [] m))%nat.
Proof.
  intros parse j m H. unfold matrix_of in H. destruct j; try discriminate. destruct (mapM _ l) as [[|r k]|]; cbn [bind] in H; try discriminate.
  destruct (_ && _ && _)%bool eqn:E; [|discriminate]. injection H as <-. apply andb_prop in E as [E E3]. apply andb_prop in E as [_ E2].
  apply Nat.leb_le in E2, E3. split; assumption.
Qed.
Lemma slot_full : forall m s, (6 <= List.length m)%nat -> (6 <= List.length (hd [] m))%nat -> slot m = Ok s -> s = (fun i j => entry m i j).
Proof.
  intros m s A B H. unfold slot in H. rewrite !Nat.min_l in H by assumption. cbn in H. injection H as <-. reflexivity.
Qed.
Lemma sig_names : forall parse text els l v, reads parse text els l ->
  mapM (field l) ["e_sig"; "q_sig"; "tp_sig"; "om_sig"; "w_sig"; "i_sig"] = Ok v ->
  mapM (element_sigma parse text els) ["e"; "q"; "tp"; "om"; "w"; "i"] = Ok v.
Proof.
  intros parse text els l v R H.
  change ["e_sig"; "q_sig"; "tp_sig"; "om_sig"; "w_sig"; "i_sig"] with (map (fun n => (n ++ "_sig")%string) ["e"; "q"; "tp"; "om"; "w"; "i"]) in H.
  rewrite mapM_map in H. revert H. apply mapM_agree. intros n w Hn. apply R. cbn in *. tauto.
Qed.
(* one answer *)
Lemma same_pre : forall parse text payload r p, belongs parse text payload r -> read_result r = Ok p ->
  exists q, read_payload parse text payload = Ok q /\ sp_object q = sp_object p /\ sp_epoch q = sp_epoch p /\ sp_coords q = sp_coords p
    /\ sp_cov q = sp_cov p.
Proof.
  intros parse text payload r p [BO [[orbit [els [O [Ep [El [R BC]]]]]] [ph P]]] H. unfold read_result in H.
  destruct (l_object r) as [o|]; [|discriminate]. destruct (l_class r); [|discriminate]. destruct BO as [obj [G F]].
  destruct (legacy_choose r) as [[[le t] m]|] eqn:C; [|discriminate]. cbn [bind] in H.
  destruct (mapM (field le) _) as [v|] eqn:V; [|discriminate]. cbn [bind] in H. destruct (jd_row (nth 5 v None)) as [tp|] eqn:T; [|discriminate]. cbn [bind] in H.
  injection H as <-. unfold read_payload.
  assert (H1 : has "object" payload = true) by (apply get_has; rewrite G; discriminate).
  assert (H2 : has "orbit" payload = true) by (apply get_has; rewrite O; discriminate).
  rewrite H1, H2, G, O, !or_empty_same. cbn [negb bind].
  assert (K : exists e cm, choose parse text orbit = Ok (JList e, t, cm) /\ reads parse text e le
     /\ match cm with Some mm => m = entry mm | None => exists s, mapM (element_sigma parse text e) ["e"; "q"; "tp"; "om"; "w"; "i"] = Ok s /\ m = entry (sigmas_to_covariance s) end).
  { unfold legacy_choose in C. unfold choose. rewrite Ep. cbn [bind]. destruct (l_cov r) as [c|].
    - destruct BC as [cov [B1 [B2 [B3 [B4 B5]]]]]. destruct (str_list_eqb _ _) eqn:L; [|discriminate].
      destruct (slot (lc_data c)) as [sl|] eqn:Sl; [|discriminate]. cbn [bind] in C.
      destruct (matrix_size _ _ _ B3) as [Z1 Z2]. apply slot_full in Sl; try assumption.
      rewrite B1. assert (RC : read_covariance parse text cov = Ok (lc_data c)) by (unfold read_covariance; rewrite B2, labels_of, L; exact B3).
      assert (ND : get "data" cov <> JNull) by (intros Y; rewrite Y in B3; discriminate).
      destruct (lc_elements c) as [l|].
      + destruct (lc_epoch c) as [tt|]; [|discriminate]. injection C as <- <- <-. destruct B4 as [e [B4 B4']]. exists e, (Some (lc_data c)).
        split; [|split; [exact B4'|exact Sl]]. destruct (get "data" cov); try contradiction;
        rewrite RC; cbn [bind]; rewrite B4; (destruct (get "epoch" cov) eqn:EE; [cbn in B5; discriminate|rewrite B5; reflexivity..]).
      + injection C as <- <- <-. exists els, (Some (lc_data c)). split; [|split; [exact R|exact Sl]].
        destruct (get "data" cov); try contradiction; rewrite RC; cbn [bind]; rewrite B4, El; reflexivity.
    - rewrite BC. destruct (mapM (field (l_elements r)) _) as [sg|] eqn:SG; [|discriminate]. cbn [bind] in C. injection C as <- <- <-.
      exists els, None. rewrite El. split; [reflexivity|]. split; [exact R|]. exists sg. split; [apply (sig_names parse text els (l_elements r) sg R SG)|reflexivity]. }
  destruct K as [e [cm [K1 [K2 K3]]]]. rewrite K1. cbn [bind].
  assert (V' : mapM (element_value parse text e) ["q"; "e"; "i"; "om"; "w"; "tp"] = Ok v) by (revert V; apply mapM_agree; intros n w Hn; apply K2; exact Hn).
  destruct cm as [mm|]; [|destruct K3 as [sg [K3 K4]]; rewrite K3]; cbn [bind]; rewrite V'; cbn [bind]; rewrite T; cbn [bind]; rewrite P; cbn [bind];
    eexists; (split; [reflexivity|]); cbn; rewrite F; (split; [reflexivity|]); (split; [reflexivity|]); (split; [reflexivity|]); subst m; reflexivity.
Qed.
Lemma same_pres : forall parse text payloads results, Forall2 (belongs parse text) payloads results -> forall ps, mapM read_result results = Ok ps ->
  exists qs, mapM (read_payload parse text) payloads = Ok qs /\ List.length payloads = List.length qs /\
  Forall2 (fun q p => sp_object q = sp_object p /\ sp_epoch q = sp_epoch p /\ sp_coords q = sp_coords p /\ sp_cov q = sp_cov p) qs ps.
Proof.
  intros parse text payloads results F. induction F as [|pl r pls rs B F IH]; intros ps H; cbn in H.
  - injection H as <-. exists []. repeat split. constructor.
  - destruct (read_result r) as [p|] eqn:R; [|discriminate]. cbn [bind] in H. destruct (mapM read_result rs) as [ps'|] eqn:M; [|discriminate]. cbn [bind] in H. injection H as <-.
    destruct (same_pre _ _ _ _ _ B R) as [q [Q1 Q2]]. destruct (IH ps' eq_refl) as [qs [I1 [I2 I3]]].
    exists (q :: qs). cbn. rewrite Q1. cbn [bind]. rewrite I1. split; [reflexivity|]. split; [congruence|]. constructor; assumption.
Qed.
(* whenever the older query succeeds, the newer one succeeds on the same answers and returns the same orbits but for the physical parameters *)
Theorem C275_partial : forall parse text workers order fetch allow ids payloads results os,
  get_payloads workers order fetch ids = Ok payloads -> List.length ids = List.length payloads ->
  Forall2 (belongs parse text) payloads results -> query_sbdb results = Ok os ->
  exists ns, query_sbdb_new parse text workers order fetch allow false ids = Ok ns /\ Forall2 same_orbit os ns.
Proof.
  intros parse text workers order fetch allow ids payloads results os G L F H. unfold query_sbdb_new. rewrite G. cbn [bind].
  unfold query_sbdb in H. destruct (mapM read_result results) as [ps|] eqn:M; [|discriminate]. cbn [bind] in H.
  assert (Obj : forall pl, In pl payloads -> has "object" pl = true).
  { clear - F M. revert ps M. induction F as [|pl r pls rs B F IH]; intros ps M x Hx; [destruct Hx|]. cbn in M.
    destruct (read_result r) as [p|] eqn:R; [|discriminate]. cbn [bind] in M. destruct (mapM read_result rs) as [ps'|] eqn:M'; [|discriminate].
    destruct Hx as [<-|Hx]; [|eapply IH; [reflexivity|exact Hx]]. destruct B as [B _]. unfold read_result in R. destruct (l_object r); [|discriminate].
    destruct B as [obj [B _]]. apply get_has. rewrite B. discriminate. }
  assert (K : (if allow then filter (fun p => has "object" (snd p)) (combine ids payloads) else combine ids payloads) = combine ids payloads).
  { destruct allow; [|reflexivity]. clear - Obj. revert payloads Obj. induction ids as [|i ids IH]; intros [|p ps] Obj; try reflexivity.
    cbn [combine filter snd]. rewrite (Obj p) by (left; reflexivity). f_equal. apply IH. intros; apply Obj; right; assumption. }
  rewrite K. destruct (same_pres _ _ _ _ F ps M) as [qs [Q1 [Q2 Q3]]].
  destruct (mapM (fun p => jd_row (sp_epoch p)) ps) as [ts|] eqn:T; [|discriminate]. cbn [bind] in H. injection H as <-.
  assert (T' : mapM (fun p => jd_row (sp_epoch p)) qs = Ok ts).
  { clear - Q3 T. revert ts T. induction Q3 as [|q p qs ps [_ [E _]] Q3 IH]; intros ts T; cbn in *; [exact T|]. rewrite E.
    destruct (jd_row (sp_epoch p)); [|discriminate]. cbn [bind] in *. destruct (mapM _ ps) as [ts'|]; [|discriminate]. rewrite (IH ts' eq_refl). exact T. }
  assert (Main : exists ns, orbits_from_payloads parse text ids payloads = Ok ns
     /\ Forall2 same_orbit (map (fun q => let '(i, (p, t)) := q in mksorb (pad5 i) (sp_object p) t "tdb" (sp_coords p) (sp_cov p) (sp_phys p) "SUN" "ecliptic") (combine (seq 0 (List.length ps)) (combine ps ts))) ns).
  { unfold orbits_from_payloads. rewrite L, Nat.eqb_refl. cbn [negb]. rewrite Q1. cbn [bind]. rewrite T'. cbn [bind]. eexists. split; [reflexivity|].
    clear - Q3. generalize 0%nat. revert ts. induction Q3 as [|q p qs ps [E1 [E2 [E3 E4]]] Q3 IH]; intros ts n; [constructor|].
    destruct ts as [|t ts]; [constructor|]. cbn [List.length seq combine map]. constructor; [|apply IH].
    unfold same_orbit. cbn. rewrite E1, E3, E4. repeat split. }
  destruct (combine ids payloads) as [|x xs] eqn:Cb.
  - destruct ids as [|i ids]; destruct payloads as [|pl pls]; try discriminate. inversion F; subst. cbn in M. injection M as <-. exists []. split; [reflexivity|constructor].
  - rewrite <- Cb. assert (E1 : map fst (combine ids payloads) = ids) by (clear - L; revert payloads L; induction ids as [|i ids IH]; intros [|p ps] L; try discriminate; [reflexivity|]; cbn; f_equal; apply IH; cbn in L; congruence).
    assert (E2 : map snd (combine ids payloads) = payloads) by (clear - L; revert payloads L; induction ids as [|i ids IH]; intros [|p ps] L; try discriminate; [reflexivity|]; cbn; f_equal; apply IH; cbn in L; congruence).
    rewrite E1, E2. destruct Main as [ns [N1 N2]]. rewrite N1. cbn [bind]. exists ns. split; [reflexivity|exact N2].
Qed.
Print Assumptions C275_partial.
(* an answer with an absolute magnitude, and one without uncertainties *)
Definition no_text : string -> option num := fun _ => None.
Definition element (name : string) (v : Q) (s : json) : json := JObj [("name", JStr name); ("value", JNum (Some v)); ("sigma", s)].
Definition sample_payload (s : json) : dict :=
  [("object", JObj [("fullname", JStr "A")]);
   ("orbit", JObj [("epoch", JNum (Some 2460000%Q)); ("elements", JList [element "e" (1 # 2) s; element "q" 1 s; element "tp" 2459900 s; element "om" 10 s; element "w" 20 s; element "i" 5 s])]);
   ("phys_par", JList [JObj [("name", JStr "H"); ("value", JNum (Some 18%Q))]])].
Definition sample_result (with_sigma : bool) : lres :=
  mk_lres (Some "A") (Some "APO")
    (let v := [("e", Some (1 # 2)%Q); ("q", Some 1%Q); ("tp", Some 2459900%Q); ("om", Some 10%Q); ("w", Some 20%Q); ("i", Some 5%Q)] in
     if with_sigma then v ++ map (fun n => ((n ++ "_sig")%string, Some (1 # 10)%Q)) ["e"; "q"; "tp"; "om"; "w"; "i"] else v) (Some 2460000%Q) None.
Lemma sample_belongs : forall b : bool, belongs no_text (fun _ => "") (sample_payload (if b then JNum (Some (1 # 10)%Q) else JNull)) (sample_result b).
Proof.
  intros b. split; [exists [("fullname", JStr "A")]; destruct b; split; reflexivity|]. split.
  - eexists. eexists. split; [reflexivity|]. split; [reflexivity|]. split; [reflexivity|]. split; [|destruct b; reflexivity].
    intros n Hn. cbn in Hn. destruct b; destruct Hn as [<-|[<-|[<-|[<-|[<-|[<-|[]]]]]]]; split; intros v Hv; vm_compute in Hv |- *; first [discriminate|exact Hv].
  - eexists. destruct b; reflexivity.
Qed.
Theorem C275_refuted :
  (exists payload r o n, belongs no_text (fun _ => "") payload r /\ query_sbdb [r] = Ok [o]
     /\ orbits_from_payloads no_text (fun _ => "") ["A"] [payload] = Ok [n] /\ sb_phys o = (None, None, None, None) /\ sb_phys n = (Some 18%Q, None, None, None))
  /\ (exists payload r n, belongs no_text (fun _ => "") payload r /\ query_sbdb [r] = Err KeyError
     /\ orbits_from_payloads no_text (fun _ => "") ["A"] [payload] = Ok [n]).
Proof.
  split.
  - exists (sample_payload (JNum (Some (1 # 10)%Q))), (sample_result true). eexists. eexists. split; [exact (sample_belongs true)|].
    split; [reflexivity|]. split; [reflexivity|]. split; reflexivity.
  - exists (sample_payload JNull), (sample_result false). eexists. split; [exact (sample_belongs false)|]. split; reflexivity.
Qed.
Print Assumptions C275_refuted.
Example C275_case : Forall2 (belongs no_text (fun _ => "")) [sample_payload (JNum (Some (1 # 10)%Q))] [sample_result true]
  /\ exists o, query_sbdb [sample_result true] = Ok [o] /\ sb_id o = "00000" /\ sb_object o = "A".
Proof. split; [constructor; [exact (sample_belongs true)|constructor]|]. eexists. split; [reflexivity|]. split; reflexivity. Qed.

(* ---- C276 ---- *)
Lemma first_of_le : forall l s, In s l -> (first_of l <= s_mjd s)%Q.
Proof.
  intros l s H. unfold first_of. generalize (s_mjd (hd (mk_spot 0 None None) l)). intros d. induction l as [|x l IH]; [destruct H|]. cbn [fold_right].
  set (m := fold_right _ d l) in *. destruct (Qle_bool (s_mjd x) m) eqn:E.
  - apply Qle_bool_iff in E. destruct H as [->|H]; [apply Qle_refl|]. eapply Qle_trans; [exact E|apply IH; exact H].
  - destruct H as [->|H]; [|apply IH; exact H]. destruct (Qlt_le_dec (s_mjd s) m) as [Z|Z]; [|exact Z]. apply Qlt_le_weak, Qle_bool_iff in Z. congruence.
Qed.
Lemma first_of_in : forall l, l <> [] -> exists s, In s l /\ first_of l = s_mjd s.
Proof.
  intros l NE. unfold first_of. assert (D : exists s, In s l /\ s_mjd (hd (mk_spot 0 None None) l) = s_mjd s) by (destruct l as [|x l]; [contradiction|exists x; split; [left|]; reflexivity]).
  revert D. generalize (s_mjd (hd (mk_spot 0 None None) l)). intros d [s0 [H0 E0]].
  assert (A : forall k, (fold_right (fun s m => if Qle_bool (s_mjd s) m then s_mjd s else m) d k = d) \/ exists s, In s k /\ fold_right (fun s m => if Qle_bool (s_mjd s) m then s_mjd s else m) d k = s_mjd s).
  { induction k as [|x k IH]; [left; reflexivity|]. cbn [fold_right]. destruct (Qle_bool (s_mjd x) _); [right; exists x; split; [left|]; reflexivity|].
    destruct IH as [IH|[s [Hs IH]]]; [left; exact IH|right; exists s; split; [right; exact Hs|exact IH]]. }
  destruct (A l) as [E|E]; [exists s0; split; [exact H0|rewrite E; exact E0]|exact E].
Qed.
Lemma ssorted_split : forall a b, in_time (a ++ b) -> in_time a /\ forall x y, In x a -> In y b -> (s_mjd x <= s_mjd y)%Q.
Proof.
  induction a as [|x a IH]; intros b S; [split; [constructor|intros ? ? []]|]. inversion S as [|? ? S1 S2]; subst. destruct (IH b S1) as [I1 I2].
  rewrite Forall_forall in S2. split.
  - constructor; [exact I1|]. apply Forall_forall. intros z Hz. apply S2. apply in_or_app. left. exact Hz.
  - intros u v [<-|Hu] Hv; [apply S2; apply in_or_app; right; exact Hv|apply I2; assumption].
Qed.
(* refused exactly without an impact on the Earth *)
Theorem C276_refused : forall E (body : E -> string) geo f impacts,
  risk_corridor body geo f impacts = Err ValueError <-> forall e, In e impacts -> body e <> "EARTH".
Proof.
  intros E body geo f impacts. unfold risk_corridor. destruct (filter _ impacts) as [|x l] eqn:F; split; intros H; try reflexivity; try discriminate.
  - intros e He B. assert (I : In e []) by (rewrite <- F; apply filter_In; split; [exact He|apply String.eqb_eq; exact B]). exact I.
  - exfalso. assert (I : In x (filter (fun e => String.eqb (body e) "EARTH") impacts)) by (rewrite F; left; reflexivity).
    apply filter_In in I as [I1 I2]. apply String.eqb_eq in I2. exact (H x I1 I2).
Qed.
Print Assumptions C276_refused.
(* one frame for each impact on the Earth; frame k shows the k + 1 earliest of them, in order, with their minutes since the first one *)
Theorem C276_frames : forall E (body : E -> string) geo f impacts fig, orders f -> risk_corridor body geo f impacts = Ok fig ->
  let earth := map geo (filter (fun e => String.eqb (body e) "EARTH") impacts) in
  List.length (c_frames fig) = List.length earth /\ c_slider fig = map f_name (c_frames fig)
  /\ (exists t0 t1, (exists a b, In a earth /\ In b earth /\ s_mjd a = t0 /\ s_mjd b = t1) /\ (forall s, In s earth -> (t0 <= s_mjd s <= t1)%Q)
      /\ exists m, c_ticks fig = [0%Q; m] /\ (m == 1440 * (t1 - t0))%Q)
  /\ exists t0, (exists s, In s earth /\ s_mjd s = t0 /\ c_center fig = (s_lon s, s_lat s)) /\ (forall s, In s earth -> (t0 <= s_mjd s)%Q)
  /\ forall k fr, nth_error (c_frames fig) k = Some fr ->
     f_name fr = k /\ exists shown later, Permutation earth (shown ++ later) /\ List.length shown = (k + 1)%nat /\ in_time shown
       /\ (forall a b, In a shown -> In b later -> (s_mjd a <= s_mjd b)%Q)
       /\ f_lon fr = map s_lon shown /\ f_lat fr = map s_lat shown
       /\ Forall2 (fun m s => (m == 1440 * (s_mjd s - t0))%Q) (f_minutes fr) shown
       /\ (forall t, In t (f_ticks fr) -> (0 <= t <= last (f_minutes fr) 0)%Q)
       /\ hd 1%Q (f_ticks fr) = 0%Q /\ (last (f_ticks fr) 0 == last (f_minutes fr) 0)%Q.
Proof.
  intros E body geo f impacts fig O H. unfold risk_corridor in H. destruct (filter _ impacts) as [|e0 el] eqn:F; [discriminate|].
  set (earth := map geo (e0 :: el)) in *. destruct (O earth) as [P T]. set (s := f earth) in *. injection H as <-. cbv zeta. cbn [c_frames c_slider c_center c_ticks].
  assert (NE : s <> []) by (intros Z; rewrite Z in P; symmetry in P; apply Permutation_nil in P; discriminate).
  split; [rewrite map_length, seq_length; symmetry; apply Permutation_length; exact P|].
  split; [rewrite map_map, map_length, seq_length; cbn [f_name]; symmetry; apply map_id|].
  assert (Hd : exists x r, s = x :: r /\ (first_of s == s_mjd x)%Q /\ first_of s = first_of s).
  { destruct s as [|x r]; [contradiction|]. exists x, r. split; [reflexivity|]. split; [|reflexivity]. apply Qle_antisym; [apply first_of_le; left; reflexivity|].
    destruct (first_of_in (x :: r)) as [y [Hy ->]]; [discriminate|]. destruct Hy as [<-|Hy]; [apply Qle_refl|]. inversion T as [|? ? _ T2]; subst. rewrite Forall_forall in T2. apply T2. exact Hy. }
  destruct Hd as [x [r [Es [E0 _]]]]. split.
  { destruct (exists_last NE) as [l [y Ey]]. exists (s_mjd x), (s_mjd y). split; [|split].
    - exists x, y. split; [eapply Permutation_in; [symmetry; exact P|rewrite Es; left; reflexivity]|].
      split; [eapply Permutation_in; [symmetry; exact P|rewrite Ey; apply in_or_app; right; left; reflexivity]|]. split; reflexivity.
    - intros z Hz. assert (Hs : In z s) by (eapply Permutation_in; [exact P|exact Hz]). split; [rewrite <- E0; apply first_of_le; exact Hs|].
      rewrite Ey in Hs, T. destruct (ssorted_split _ _ T) as [_ T2]. apply in_app_or in Hs as [Hs|[->|[]]]; [apply T2; [exact Hs|left; reflexivity]|apply Qle_refl].
    - eexists. split; [reflexivity|]. set (f0 := first_of s) in *. rewrite Ey, map_app. cbn [map]. rewrite last_last, E0. ring. }
  exists (s_mjd x). split; [|split].
  - exists x. split; [eapply Permutation_in; [symmetry; exact P|rewrite Es; left; reflexivity]|]. split; [reflexivity|]. rewrite Es. reflexivity.
  - intros y Hy. rewrite <- E0. apply first_of_le. eapply Permutation_in; [exact P|exact Hy].
  - intros k fr Hk. rewrite nth_error_map in Hk. destruct (nth_error (seq 0 (List.length s)) k) as [i|] eqn:Ei; [|discriminate]. cbn in Hk. injection Hk as <-.
    assert (Kl : (k < List.length s)%nat) by (rewrite <- (seq_length (List.length s) 0); apply nth_error_Some; congruence).
    apply nth_error_nth with (d := 0%nat) in Ei. rewrite seq_nth in Ei by exact Kl. cbn in Ei. subst i. cbn [f_name f_lon f_lat f_minutes f_ticks]. split; [reflexivity|].
    exists (firstn (k + 1) s), (skipn (k + 1) s). rewrite firstn_skipn.
    assert (T' : in_time (firstn (k + 1) s ++ skipn (k + 1) s)) by (rewrite firstn_skipn; exact T). destruct (ssorted_split _ _ T') as [T1 T2].
    set (mins := map (fun x0 => ((s_mjd x0 - first_of s) * 24 * 60)%Q) s).
    assert (Lm : List.length mins = List.length s) by (apply map_length).
    assert (Last : last (firstn (k + 1) mins) 0%Q = nth k mins 0%Q).
    { clear - Kl Lm. rewrite <- Lm in Kl. clear Lm. revert k Kl. induction mins as [|m ms IH]; intros k Kl; [cbn in Kl; lia|]. destruct k as [|k]; [reflexivity|].
      cbn [Nat.add firstn nth]. rewrite <- IH by (cbn in Kl; lia). destruct ms as [|m2 ms]; [cbn in Kl; lia|]. cbn [Nat.add firstn]. destruct k; reflexivity. }
    assert (Pos : (0 <= nth k mins 0)%Q).
    { assert (I : In (nth k mins 0%Q) mins) by (apply nth_In; rewrite Lm; exact Kl). apply in_map_iff in I as [y [<- Hy]]. pose proof (first_of_le s y Hy). lra. }
    split; [exact P|]. split; [rewrite firstn_length; lia|]. split; [exact T1|]. split; [exact T2|]. split; [reflexivity|]. split; [reflexivity|]. split; [|split; [|split]].
    + unfold mins. rewrite firstn_map. clear - E0. generalize (firstn (k + 1) s). intros l. induction l as [|y l IH]; cbn [map]; constructor; [rewrite E0; ring|exact IH].
    + rewrite Last. intros t Ht. unfold ticks in Ht. set (m := nth k mins 0%Q) in *. destruct k as [|[|k]]; cbn in Ht.
      * destruct Ht as [<-|[]]. lra.
      * destruct Ht as [<-|[<-|[]]]; lra.
      * destruct Ht as [<-|[<-|[<-|[]]]]; try lra. unfold Qdiv. change (/ 2)%Q with (1 # 2)%Q. lra.
    + destruct k as [|[|k]]; reflexivity.
    + rewrite Last. destruct k as [|[|k]]; cbn [ticks last]; try reflexivity. subst mins. rewrite Es. cbn [map nth]. rewrite <- Es, E0. ring.
Qed.
Print Assumptions C276_frames.
Definition by_mjd (a b : spot) : bool := Qle_bool (s_mjd a) (s_mjd b).
(* stable sorting is admissible; three impacts, one of them on the Moon *)
Example C276_case : orders (sort by_mjd)
  /\ exists fig, risk_corridor fst snd (sort by_mjd) [("EARTH", mk_spot 2 (Some 1%Q) (Some 1%Q)); ("MOON", mk_spot 0 None None); ("EARTH", mk_spot 1 (Some 3%Q) (Some 4%Q))] = Ok fig
     /\ c_center fig = (Some 3%Q, Some 4%Q) /\ List.length (c_frames fig) = 2%nat.
Proof.
  split; [|eexists; split; [reflexivity|split; reflexivity]].
  intros l. split; [apply sort_perm|].
  assert (S : StronglySorted (fun a b => by_mjd a b = true) (sort by_mjd l)).
  { apply sort_sorted; unfold by_mjd.
    - intros a b. destruct (Qlt_le_dec (s_mjd a) (s_mjd b)) as [Z|Z]; [left; apply Qle_bool_iff, Qlt_le_weak; exact Z|right; apply Qle_bool_iff; exact Z].
    - intros a b c A B. apply Qle_bool_iff in A, B. apply Qle_bool_iff. eapply Qle_trans; eassumption. }
  induction S as [|p m S IH F]; constructor; [exact IH|]. eapply Forall_impl; [|exact F]. intros q. apply Qle_bool_iff.
Qed.

(* ---- C277 ---- *)
Open Scope Q_scope.
Lemma trunc_mono : forall x y, 0 <= x -> x <= y -> (trunc x <= trunc y)%Z.
Proof.
  intros x y A B. unfold trunc. assert (X : Qle_bool 0 x = true) by (apply Qle_bool_iff; exact A). assert (Y : Qle_bool 0 y = true) by (apply Qle_bool_iff; lra).
  rewrite X, Y. apply Qfloor_resp_le. exact B.
Qed.
Lemma channel_range : forall x, (0 <= channel x <= 255)%Z.
Proof. intros x. unfold channel. lia. Qed.
Lemma channel_mono : forall x y, 0 <= x -> x <= y -> (channel x <= channel y)%Z.
Proof.
  intros x y A B. unfold channel. assert (T : (trunc (x * 255) <= trunc (y * 255))%Z) by (apply trunc_mono; lra). lia.
Qed.
(* the number of levels, their positions, the ranges of channels and opacity *)
Theorem C277_levels : forall r g b ml xl xa ma n ls, perceptual r g b ml xl xa ma n = Ok ls ->
  List.length ls = Z.to_nat n
  /\ (forall k v, nth_error ls k = Some v -> v_position v * inject_Z (n - 1) == inject_Z (Z.of_nat k) /\ 0 <= v_position v <= 1
      /\ (0 <= v_red v <= 255 /\ 0 <= v_green v <= 255 /\ 0 <= v_blue v <= 255)%Z
      /\ v_alpha v == ma + (xa - ma) * v_position v /\ (ma <= xa -> ma <= v_alpha v <= xa)).
Proof.
  intros r g b ml xl xa ma n ls H. unfold perceptual in H. destruct (Z.eqb_spec n 1); [discriminate|]. injection H as <-. split; [rewrite map_length, seq_length; reflexivity|].
  intros k v Hk. rewrite nth_error_map in Hk. destruct (nth_error (seq 0 (Z.to_nat n)) k) as [i|] eqn:Ei; [|discriminate]. cbn in Hk. injection Hk as <-.
  assert (Kl : (k < Z.to_nat n)%nat) by (rewrite <- (seq_length (Z.to_nat n) 0); apply nth_error_Some; congruence).
  apply nth_error_nth with (d := 0%nat) in Ei. rewrite seq_nth in Ei by exact Kl. cbn in Ei. subst i. cbn [color_level v_position v_red v_green v_blue v_alpha].
  assert (N : 0 < inject_Z (n - 1)) by (change 0 with (inject_Z 0); rewrite <- Zlt_Qlt; lia).
  assert (K1 : 0 <= inject_Z (Z.of_nat k)) by (change 0 with (inject_Z 0); rewrite <- Zle_Qle; lia).
  assert (K2 : inject_Z (Z.of_nat k) <= inject_Z (n - 1)) by (rewrite <- Zle_Qle; lia).
  set (p := inject_Z (Z.of_nat k) / inject_Z (n - 1)).
  assert (E : p * inject_Z (n - 1) == inject_Z (Z.of_nat k)) by (unfold p; field; intros Z; rewrite Z in N; exact (Qlt_irrefl 0 N)).
  assert (P0 : 0 <= p) by (unfold p; apply Qle_shift_div_l; [exact N|lra]). assert (P1 : p <= 1) by (unfold p; apply Qle_shift_div_r; [exact N|lra]).
  split; [exact E|]. split; [split; assumption|]. split; [repeat split; apply channel_range|]. split; [reflexivity|]. intros A. split; nra.
Qed.
Print Assumptions C277_levels.
(* a later level is the base colour at a lightness between the bounds, rounded down; the first one is mixed with white *)
Theorem C277_colour : forall r g b ml xl xa ma n ls, (0 <= r <= 255)%Z -> (0 <= g <= 255)%Z -> (0 <= b <= 255)%Z -> 0 <= ml -> ml <= xl -> xl <= 1 ->
  perceptual r g b ml xl xa ma n = Ok ls -> forall k v, nth_error ls k = Some v ->
  let l := xl - v_position v * (xl - ml) in let m := inject_Z (Z.max (Z.max r g) b) in
  forall z c, In (z, c) [(r, v_red v); (g, v_green v); (b, v_blue v)] ->
    (k = 0%nat -> inject_Z c <= inject_Z z * l + 255 * (1 - l) < inject_Z c + 1)
    /\ ((1 <= k)%nat -> 0 < m -> inject_Z c <= 255 * l * (inject_Z z / m) < inject_Z c + 1).
Proof.
  intros r g b ml xl xa ma n ls R G B L0 L1 L2 H k v Hk. destruct (C277_levels _ _ _ _ _ _ _ _ _ H) as [Len At]. destruct (At k v Hk) as [P1 [[P2 P3] _]].
  clear At. unfold perceptual in H. destruct (Z.eqb_spec n 1); [discriminate|]. injection H as <-.
  rewrite nth_error_map in Hk. destruct (nth_error (seq 0 (Z.to_nat n)) k) as [i|] eqn:Ei; [|discriminate]. cbn in Hk. injection Hk as <-.
  assert (Kl : (k < Z.to_nat n)%nat) by (rewrite <- (seq_length (Z.to_nat n) 0); apply nth_error_Some; congruence).
  apply nth_error_nth with (d := 0%nat) in Ei. rewrite seq_nth in Ei by exact Kl. cbn in Ei. subst i. cbn [color_level v_position v_red v_green v_blue] in *.
  set (p := inject_Z (Z.of_nat k) / inject_Z (n - 1)) in *. cbv zeta.
  set (l := xl - p * (xl - ml)). assert (Lr : 0 <= l <= 1) by (unfold l; split; nra).
  assert (Round : forall x, 0 <= x -> x <= 1 -> inject_Z (channel x) <= 255 * x < inject_Z (channel x) + 1).
  { intros x X0 X1. unfold channel, trunc. assert (Y : Qle_bool 0 (x * 255) = true) by (apply Qle_bool_iff; lra). rewrite Y.
    assert (F0 : (0 <= Qfloor (x * 255))%Z) by (change 0%Z with (Qfloor 0); apply Qfloor_resp_le; lra).
    assert (F1 : (Qfloor (x * 255) <= 255)%Z) by (apply Z.le_trans with (Qfloor 255); [apply Qfloor_resp_le; lra|vm_compute; discriminate]).
    rewrite Z.min_r, Z.max_r by assumption. pose proof (Qfloor_le (x * 255)) as A. pose proof (Qlt_floor (x * 255)) as C. rewrite inject_Z_plus in C. change (inject_Z 1) with 1 in C. lra. }
  assert (Main : forall z, (0 <= z <= 255)%Z -> (z <= Z.max (Z.max r g) b)%Z ->
    (k = 0%nat -> inject_Z (channel (component r g b ml xl p z)) <= inject_Z z * l + 255 * (1 - l) < inject_Z (channel (component r g b ml xl p z)) + 1)
    /\ ((1 <= k)%nat -> 0 < inject_Z (Z.max (Z.max r g) b) -> inject_Z (channel (component r g b ml xl p z)) <= 255 * l * (inject_Z z / inject_Z (Z.max (Z.max r g) b)) < inject_Z (channel (component r g b ml xl p z)) + 1)).
  { intros z [Z0 Z1] ZM.
    assert (Zq : 0 <= inject_Z z <= 255) by (split; [change 0 with (inject_Z 0)|change 255 with (inject_Z 255)]; rewrite <- Zle_Qle; assumption).
    assert (Bz : base z == inject_Z z * (1 # 255)) by reflexivity. split.
    - intros ->. assert (EP : Qeq_bool p 0 = true) by (apply Qeq_bool_iff; unfold p; cbn; reflexivity). unfold component. rewrite EP. fold (lightness ml xl p). change (lightness ml xl p) with l.
      assert (Q0 : 0 <= base z * l) by (rewrite Bz; nra). assert (Q1 : base z * l <= l) by (rewrite Bz; nra).
      pose proof (Round (base z * l + (1 - l))) as Rd. assert (X : 255 * (base z * l + (1 - l)) == inject_Z z * l + 255 * (1 - l)) by (rewrite Bz; ring). rewrite X in Rd. apply Rd; lra.
    - intros K M. assert (N : 0 < inject_Z (n - 1)) by (change 0 with (inject_Z 0); rewrite <- Zlt_Qlt; lia).
      assert (P : 0 < p) by (unfold p; apply Qlt_shift_div_l; [exact N|]; change (0 * inject_Z (n - 1)) with (0 * inject_Z (n - 1)); rewrite Qmult_0_l; change 0 with (inject_Z 0); rewrite <- Zlt_Qlt; lia).
      assert (EP : Qeq_bool p 0 = false) by (apply Bool.not_true_iff_false; intros Y; apply Qeq_bool_iff in Y; lra).
      unfold component. rewrite EP. change (lightness ml xl p) with l.
      assert (Mx : qmax2 (qmax2 (base r) (base g)) (base b) == inject_Z (Z.max (Z.max r g) b) * (1 # 255)).
      { assert (Q2 : forall x y, qmax2 (base x) (base y) = base (Z.max x y)).
        { intros x y. unfold qmax2. destruct (Qle_bool (base x) (base y)) eqn:E.
          - apply Qle_bool_iff in E. unfold base, Qdiv in E. apply Qmult_le_r in E; [|reflexivity]. rewrite <- Zle_Qle in E. rewrite Z.max_r by exact E. reflexivity.
          - assert (F : (y <= x)%Z). { destruct (Z.le_gt_cases y x) as [Y|Y]; [exact Y|]. exfalso. assert (base x <= base y); [|apply Qle_bool_iff in H; congruence].
              unfold base, Qdiv. apply Qmult_le_compat_r; [|discriminate]. rewrite <- Zle_Qle. lia. }
            rewrite Z.max_l by exact F. reflexivity. }
        rewrite !Q2. reflexivity. }
      set (mm := qmax2 _ _) in *. set (M0 := inject_Z (Z.max (Z.max r g) b)) in *.
      assert (EM : Qle_bool mm 0 = false) by (apply Bool.not_true_iff_false; intros Y; apply Qle_bool_iff in Y; lra). rewrite EM.
      assert (Ratio : base z * (l / mm) == l * (inject_Z z / M0)) by (rewrite Bz, Mx; field; intros Y; rewrite Y in M; exact (Qlt_irrefl 0 M)).
      assert (ZM' : inject_Z z <= M0) by (unfold M0; rewrite <- Zle_Qle; exact ZM).
      assert (Rt : 0 <= inject_Z z / M0 <= 1) by (split; [apply Qle_shift_div_l; [exact M|lra]|apply Qle_shift_div_r; [exact M|lra]]).
      pose proof (Round (base z * (l / mm))) as Rd. assert (X : 255 * (base z * (l / mm)) == 255 * l * (inject_Z z / M0)) by (rewrite Ratio; ring). rewrite X in Rd.
      apply Rd; rewrite Ratio; nra. }
  intros z c [E|[E|[E|[]]]]; injection E as <- <-; apply Main; lia.
Qed.
Print Assumptions C277_colour.
(* the first level of purple is darker than the second *)
Theorem C277_refuted : exists ls a b, perceptual 128 0 128 (3 # 10) (9 # 10) (8 # 10) (1 # 10) 8 = Ok ls
  /\ nth_error ls 0 = Some a /\ nth_error ls 1 = Some b /\ (v_red a < v_red b)%Z.
Proof. eexists. eexists. eexists. split; [reflexivity|]. split; [reflexivity|]. split; [reflexivity|]. vm_compute. reflexivity. Qed.
Print Assumptions C277_refuted.
(* from the second level on the scale gets darker, for lightness bounds in order *)
Theorem C277_partial : forall r g b ml xl xa ma n ls, (0 <= r)%Z -> (0 <= g)%Z -> (0 <= b)%Z -> 0 <= ml -> ml <= xl ->
  perceptual r g b ml xl xa ma n = Ok ls ->
  forall i j u v, (1 <= i <= j)%nat -> nth_error ls i = Some u -> nth_error ls j = Some v -> darker u v.
Proof.
  intros r g b ml xl xa ma n ls R G B L0 L1 H i j u v IJ Hu Hv.
  destruct (C277_levels _ _ _ _ _ _ _ _ _ H) as [Len At]. unfold perceptual in H. destruct (Z.eqb_spec n 1); [discriminate|]. injection H as <-.
  assert (Get : forall k w, nth_error (map (fun k0 => color_level r g b ml xl xa ma n (Z.of_nat k0)) (seq 0 (Z.to_nat n))) k = Some w -> (k < Z.to_nat n)%nat /\ w = color_level r g b ml xl xa ma n (Z.of_nat k)).
  { intros k w Hk. rewrite nth_error_map in Hk. destruct (nth_error (seq 0 (Z.to_nat n)) k) as [x|] eqn:Ei; [|discriminate]. cbn in Hk. injection Hk as <-.
    assert (Kl : (k < Z.to_nat n)%nat) by (rewrite <- (seq_length (Z.to_nat n) 0); apply nth_error_Some; congruence). split; [exact Kl|].
    apply nth_error_nth with (d := 0%nat) in Ei. rewrite seq_nth in Ei by exact Kl. cbn in Ei. subst x. reflexivity. }
  destruct (At i u Hu) as [_ [[U0 U1] _]]. destruct (At j v Hv) as [_ [[V0 V1] _]]. destruct (Get i u Hu) as [Li ->]. destruct (Get j v Hv) as [Lj ->]. clear Get At Hu Hv Len.
  cbn [color_level v_position] in *. set (p := inject_Z (Z.of_nat i) / inject_Z (n - 1)) in *. set (q := inject_Z (Z.of_nat j) / inject_Z (n - 1)) in *.
  assert (N : 0 < inject_Z (n - 1)) by (change 0 with (inject_Z 0); rewrite <- Zlt_Qlt; lia).
  assert (I1 : 0 < inject_Z (Z.of_nat i)) by (change 0 with (inject_Z 0); rewrite <- Zlt_Qlt; lia).
  assert (IJ' : inject_Z (Z.of_nat i) <= inject_Z (Z.of_nat j)) by (rewrite <- Zle_Qle; lia).
  assert (P : 0 < p) by (unfold p; apply Qlt_shift_div_l; [exact N|lra]).
  assert (PQ : p <= q).
  { unfold p, q, Qdiv. apply Qmult_le_compat_r; [exact IJ'|]. apply Qlt_le_weak, Qinv_lt_0_compat. exact N. }
  assert (Comp : forall z, (0 <= z)%Z -> (channel (component r g b ml xl q z) <= channel (component r g b ml xl p z))%Z).
  { intros z Z0. assert (Bz : 0 <= base z) by (unfold base, Qdiv; apply Qmult_le_0_compat; [change 0 with (inject_Z 0); rewrite <- Zle_Qle; exact Z0|discriminate]).
    assert (EP : Qeq_bool p 0 = false) by (apply Bool.not_true_iff_false; intros Y; apply Qeq_bool_iff in Y; lra).
    assert (EQ : Qeq_bool q 0 = false) by (apply Bool.not_true_iff_false; intros Y; apply Qeq_bool_iff in Y; lra).
    assert (LQ : 0 <= lightness ml xl q) by (unfold lightness; nra). assert (LP : lightness ml xl q <= lightness ml xl p) by (unfold lightness; nra).
    unfold component. rewrite EP, EQ. set (m := qmax2 _ _). destruct (Qle_bool m 0) eqn:M; [apply channel_mono; assumption|].
    assert (MP : 0 < m) by (destruct (Qlt_le_dec 0 m) as [Y|Y]; [exact Y|apply Qle_bool_iff in Y; congruence]).
    assert (MI : 0 <= / m) by (apply Qlt_le_weak, Qinv_lt_0_compat; exact MP). apply channel_mono.
    - apply Qmult_le_0_compat; [exact Bz|]. apply Qmult_le_0_compat; assumption.
    - unfold Qdiv. rewrite (Qmult_comm (base z) (lightness ml xl q * / m)), (Qmult_comm (base z) (lightness ml xl p * / m)). apply Qmult_le_compat_r; [|exact Bz].
      apply Qmult_le_compat_r; assumption. }
  unfold darker. cbn [color_level v_red v_green v_blue]. fold p q. repeat split; apply Comp; assumption.
Qed.
Print Assumptions C277_partial.
Example C277_case : exists ls, perceptual 255 165 0 (3 # 10) (9 # 10) (8 # 10) (1 # 10) 3 = Ok ls
  /\ map (fun v => (v_red v, v_green v, v_blue v)) ls = [(255, 174, 25); (153, 99, 0); (76, 49, 0)]%Z.
Proof. eexists. split; [reflexivity|]. vm_compute. reflexivity. Qed.
