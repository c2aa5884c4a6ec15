(* Properties C260-C266: the data behind the impact visualisation. *)
From Coq Require Import Reals QArith Qround Qreals String Lra.
From Verif Require Import Base ListLemmas TimeModel SphModel FrameModel VizModel VizSpec VizProofs.
Open Scope string_scope.
Open Scope Z_scope.
Open Scope list_scope.

(* ---- C260: which rows are in which group ---- *)
Theorem C260_groups : forall {P C} mjd rescale (place : C -> Q -> row -> P) frame scale escale rows evs d,
  prepare mjd rescale place frame scale escale rows evs = Ok d ->
  exists free groups, d = ("Non-Impacting", free) :: groups
  /\ NoDup (map fst d)
  /\ (forall b, In b (map fst groups) <-> exists e, In e evs /\ ev_body e = b)
  /\ free = filter (fun v => negb (existsb (fun e => match ev_variant e with Some i => String.eqb i (v_id v) | None => false end) evs)) rows
  /\ (forall b g, In (b, g) groups -> Permutation (map key g) (map key (filter (victim b evs) rows))).
Proof.
  intros P C mjd rescale place frame s es rows evs d H. apply prepare_inv in H as [_ [gs [-> [M F]]]].
  exists (filter (fun v => negb (is_in evs v)) rows), gs. split; [reflexivity|].
  assert (N : forall b, In b (map fst gs) <-> exists e, In e evs /\ ev_body e = b).
  { intros b. rewrite M, (uniq_In String.eqb String.eqb_eq), in_map_iff. split; intros [e [A B]]; exists e; split; assumption. }
  split; [|split; [exact N|split]].
  - cbn [map fst]. constructor.
    + intros Hin. apply in_map_iff in Hin as [g [G1 G2]]. rewrite Forall_forall in F. destruct (F g G2) as [r [R _]].
      rewrite G1 in R. discriminate.
    + rewrite M. apply (uniq_NoDup String.eqb String.eqb_eq).
  - apply filter_ext. intros v. f_equal. unfold is_in.
    clear. induction evs as [|e evs IH]; [reflexivity|]. cbn. rewrite IH. unfold names. destruct (ev_variant e); [rewrite String.eqb_sym|]; reflexivity.
  - intros b g Hg. rewrite Forall_forall in F. destruct (F _ Hg) as [r [R G]]. cbn [fst snd] in R, G. subst g.
    rewrite (fold_show mjd rescale place s es r), map_map.
    rewrite (map_ext _ key) by (intros v; apply show_key). reflexivity.
Qed.
Print Assumptions C260_groups.

(* ---- C261: where a row is shown ---- *)
Theorem C261_frozen : forall {P C} mjd rescale (place : C -> Q -> row -> P) frame scale escale rows evs d b g,
  prepare mjd rescale place frame scale escale rows evs = Ok d -> In (b, g) (tl d) ->
  exists radius g', body_radius b = Ok radius /\ Permutation g g'
  /\ Forall2 (shown mjd rescale place scale escale b radius evs) (filter (victim b evs) rows) g'.
Proof.
  intros P C mjd rescale place frame s es rows evs d b g H Hg. apply prepare_inv in H as [_ [gs [-> [M F]]]]. cbn [tl] in Hg.
  rewrite Forall_forall in F. destruct (F _ Hg) as [r [R G]]. cbn [fst snd] in R, G. subst g.
  eexists r, _. split; [exact R|split; [apply fold_show|]].
  generalize (filter (victim b evs) rows). intros l; induction l as [|v l IH]; cbn; constructor; [apply show_shown|exact IH].
Qed.
Print Assumptions C261_frozen.

(* ---- C262: the frozen points stay on a sphere around the body ---- *)
Definition center (state : string -> string -> row -> point) (b : string) (t : row) : point :=
  if String.eqb b "EARTH" then (0, 0, 0)%R else state "ecliptic" b t.
Definition consistent (state : string -> string -> row -> point) (turn : row -> point -> point) : Prop :=
  (forall t, rigid (turn t) /\ turn t (0, 0, 0)%R = (0, 0, 0)%R)
  /\ (forall b t, to_ecliptic (state "equatorial" b t) = state "ecliptic" b t /\ turn t (state "itrf93" b t) = state "ecliptic" b t).
Theorem C262_partial : forall state turn c radius t, consistent state turn -> (0 <= radius)%Q ->
  In (k_frame c) ["ecliptic"; "equatorial"; "itrf93"] ->
  (distance (place_at state turn c radius t) (center state (k_origin c) t) = Q2R radius / LightModel.km_p_au)%R.
Proof.
  intros state turn c radius t [T S] Hr Hf. unfold place_at, center.
  set (s := spherical_to_cartesian _).
  assert (P0 : distance (c_0 s, c_1 s, c_2 s) (0, 0, 0)%R = (Q2R radius / LightModel.km_p_au)%R).
  { apply sphere_norm. apply Qle_Rle in Hr. unfold Q2R at 1 in Hr. cbn [Qnum Qden] in Hr. rewrite Rmult_0_l in Hr. unfold LightModel.km_p_au. lra. }
  rewrite <- P0. destruct (T t) as [T1 T2]. destruct (S (k_origin c) t) as [S1 S2].
  destruct Hf as [<-|[<-|[<-|[]]]]; cbn [String.eqb Ascii.eqb Bool.eqb]; destruct (String.eqb (k_origin c) "EARTH") eqn:O.
  - reflexivity.
  - apply distance_shift.
  - rewrite <- ecliptic_zero at 1. apply ecliptic_rigid.
  - rewrite <- S1, ecliptic_rigid. apply distance_shift.
  - rewrite <- T2 at 1. apply T1.
  - rewrite <- S2, T1. apply distance_shift.
Qed.
Print Assumptions C262_partial.
Theorem C262_radii : body_radius "EARTH" = Ok ((63781363 # 10000) * (999 # 1000))%Q /\ body_radius "MOON" = Ok (17381 # 10)%Q
  /\ forall b, b <> "EARTH" -> b <> "MOON" -> body_radius b = Err ValueError.
Proof.
  split; [reflexivity|split; [reflexivity|]]. intros b A B. unfold body_radius.
  apply String.eqb_neq in A, B. rewrite A, B. reflexivity.
Qed.
Print Assumptions C262_radii.
(* the documentation says that the distance from the centre of the Earth is set to the radius of the Earth *)
Theorem C262_refuted : exists state turn c radius t, consistent state turn /\ body_radius "EARTH" = Ok radius /\ k_origin c = "EARTH"
  /\ (distance (place_at state turn c radius t) (0, 0, 0) < 63781363 / 10000 / LightModel.km_p_au)%R.
Proof.
  exists (fun _ _ _ => (0, 0, 0)%R), (fun _ p => p), (mkcoll 30 45 "itrf93" "EARTH"), earth_radius_km, (mkrow 60000 0).
  assert (K : consistent (fun _ _ _ => (0, 0, 0)%R) (fun _ p => p)).
  { split; [intros t; split; [intros a b; reflexivity|reflexivity]|]. intros b t. split; [apply ecliptic_zero|reflexivity]. }
  split; [exact K|split; [reflexivity|split; [reflexivity|]]].
  pose proof (C262_partial _ _ (mkcoll 30 45 "itrf93" "EARTH") earth_radius_km (mkrow 60000 0) K) as D.
  cbn [center k_origin String.eqb Ascii.eqb Bool.eqb] in D.
  rewrite D; [|discriminate|right; right; left; reflexivity].
  unfold LightModel.km_p_au, earth_radius_km. rewrite Q2R_mult. unfold Q2R. cbn [Qnum Qden]. lra.
Qed.
Print Assumptions C262_refuted.

(* ---- C263: every row is in exactly one group ---- *)
Theorem C263_partial : forall {P C} mjd rescale (place : C -> Q -> row -> P) frame scale escale rows evs d,
  prepare mjd rescale place frame scale escale rows evs = Ok d -> one_target evs ->
  Permutation (map key (flat_map snd d)) (map key rows).
Proof.
  intros P C mjd rescale place frame s es rows evs d H O.
  pose proof H as H0. apply prepare_inv in H0 as [_ [gs [E [M F]]]]. subst d. cbn [flat_map snd].
  assert (G : Permutation (map key (flat_map snd gs)) (map key (flat_map (fun b => filter (victim b evs) rows) (map fst gs)))).
  { clear M H. induction F as [|g gs [r [R G]] F IH]; [reflexivity|]. cbn [flat_map map]. rewrite !map_app, IH. apply Permutation_app_tail.
    rewrite G, (fold_show mjd rescale place s es r), map_map, (map_ext _ key) by (intros v; apply show_key). reflexivity. }
  rewrite map_app, G, M, filter_family.
  - rewrite <- map_app. apply Permutation_map.
    rewrite (filter_ext (fun x => existsb (fun b => victim b evs x) (uniq String.eqb (map ev_body evs))) (is_in evs)).
    + clear. induction rows as [|v rows IH]; cbn; [reflexivity|]. destruct (is_in evs v); cbn; [rewrite <- Permutation_middle|]; constructor; exact IH.
    + intros v. apply Bool.eq_true_iff_eq. rewrite existsb_exists, is_in_true. split.
      * intros [b [_ V]]. apply victim_true in V as [e [He [_ K]]]. exists e. split; assumption.
      * intros [e [He K]]. exists (ev_body e). split; [apply (uniq_In String.eqb String.eqb_eq); apply in_map; exact He|].
        apply victim_true. exists e. repeat split; assumption.
  - apply (uniq_NoDup String.eqb String.eqb_eq).
  - intros v b b' _ _ _ V V'. apply victim_true in V as [e [He [B K]]]. apply victim_true in V' as [e' [He' [B' K']]].
    rewrite <- B, <- B'. apply O; try assumption; congruence.
Qed.
Print Assumptions C263_partial.
Definition toy_mjd (t : row) : Q := inject_Z (days t).
Definition toy_rescale (_ _ : string) (t : row) : row := t.
Definition toy_place (c : string) (_ : Q) (_ : row) : string := c.
Definition day (d : Z) : row := mkrow d 0.
Theorem C263_refuted : exists (rows : list (vrow string)) (evs : list (event string)) d earth moon v,
  prepare toy_mjd toy_rescale toy_place "ecliptic" "tdb" "tdb" rows evs = Ok d
  /\ In ("EARTH", earth) d /\ In ("MOON", moon) d /\ In v rows /\ In v earth /\ In (key v) (map key moon)
  /\ (length (flat_map snd d) > length rows)%nat.
Proof.
  exists [mkv "0" (day 3) "flying"], [mke "A" (Some "0") (day 2) "MOON" "crater"; mke "A" (Some "0") (day 4) "EARTH" "sea"].
  do 4 eexists. split; [vm_compute; reflexivity|].
  split; [right; right; left; reflexivity|]. split; [right; left; reflexivity|].
  split; [left; reflexivity|]. split; [left; reflexivity|]. split; [left; reflexivity|]. vm_compute. lia.
Qed.
Print Assumptions C263_refuted.

(* two groups, an impact repeated later in the table, a row exactly at the impact and an event without variant *)
Example C260_case :
  prepare toy_mjd toy_rescale toy_place "ecliptic" "tdb" "utc"
    [mkv "0" (day 1) "p01"; mkv "1" (day 1) "p11"; mkv "2" (day 1) "p21"; mkv "0" (day 2) "p02"; mkv "1" (day 2) "p12"; mkv "2" (day 2) "p22"; mkv "0" (day 3) "p03"]
    [mke "A" (Some "0") (day 3) "EARTH" "later"; mke "A" (Some "1") (day 2) "MOON" "crater"; mke "A" (Some "0") (day 2) "EARTH" "sea"; mke "A" None (day 0) "EARTH" "none"]
  = Ok [("Non-Impacting", [mkv "2" (day 1) "p21"; mkv "2" (day 2) "p22"]);
        ("EARTH", [mkv "0" (day 1) "p01"; mkv "0" (day 2) "sea"; mkv "0" (day 3) "sea"]);
        ("MOON", [mkv "1" (day 1) "p11"; mkv "1" (day 2) "crater"])].
Proof. reflexivity. Qed.
Example C263_case : one_target [mke "A" (Some "0") (day 3) "EARTH" "later"; mke "A" (Some "1") (day 2) "MOON" "crater"; mke "A" (Some "0") (day 2) "EARTH" "sea"; mke "A" None (day 0) "EARTH" "none"].
Proof. intros e e' H H' N E. cbn in H, H'. repeat (destruct H as [<-|H]; [|]); repeat (destruct H' as [<-|H']; [|]); cbn in *; try contradiction; try congruence. Qed.

(* ---- C264: a variant without impact is never shown as impacting ---- *)
Definition without_impact {C S} (evs : list (event C)) (v : variant S) : Prop :=
  forall e, In e evs -> ~ (ev_orbit e = va_orbit v /\ ev_variant e = Some (va_variant v)).
Theorem C264_partial : forall {P C S} mjd rescale (place : C -> Q -> row -> P) (propagate : list (string * S) -> list row -> list (vrow P)) from_mjd
    vs pscale escale evs time_step time_range times d v,
  generate mjd rescale place propagate from_mjd vs pscale escale evs time_step time_range = Ok (times, d) ->
  (forall a b, In a vs -> In b vs -> va_variant a = va_variant b -> va_orbit a = va_orbit b) ->
  (forall e i, In e evs -> ev_variant e = Some i -> exists a, In a vs /\ va_variant a = i /\ va_orbit a = ev_orbit e) ->
  In v vs -> without_impact evs v ->
  forall b g, In (b, g) d ->
    if String.eqb b "Non-Impacting"
    then Permutation (filter (fun w => String.eqb (v_id w) (va_variant v)) g)
           (filter (fun w => String.eqb (v_id w) (va_variant v)) (propagate (map (fun a => (va_variant a, va_state a)) vs) times))
    else forall w, In w g -> v_id w <> va_variant v.
Proof.
  intros P C S mjd rescale place propagate from_mjd vs ps es evs st rg times d v H U K Hv W b g Hg.
  unfold generate in H. destruct (existsb _ evs); [discriminate|]. destruct (map _ evs) as [|t ts]; [discriminate|].
  destruct (grid _ _ _ _) as [mjds|] eqn:G; cbn [bind] in H; [|discriminate].
  destruct (prepare _ _ _ _ _ _ _ _) as [d0|] eqn:E; cbn [bind] in H; [|discriminate]. injection H as <- <-.
  assert (N : forall e, In e evs -> ev_variant e <> Some (va_variant v)).
  { intros e He X. destruct (K e _ He X) as [a [Ha [A1 A2]]]. apply (W e He). split; [|exact X]. rewrite <- A2. apply U; assumption. }
  set (rows := propagate _ _) in *.
  apply C260_groups in E as [free [gs [-> [ND [B [Ef Gr]]]]]].
  cbn [map fst snd] in Hg. destruct Hg as [Hg|Hg].
  - injection Hg as <- <-. cbn [String.eqb Ascii.eqb Bool.eqb]. rewrite (filter_perm _ _ _ (Permutation_sym (sort_perm row_leb free))).
    rewrite Ef, filter_filter'. rewrite (filter_ext_in' _ (fun w => String.eqb (v_id w) (va_variant v))); [reflexivity|].
    intros w _. destruct (String.eqb (v_id w) (va_variant v)) eqn:Q; [|rewrite Bool.andb_false_r; reflexivity].
    apply String.eqb_eq in Q. rewrite Bool.andb_true_r, Bool.negb_true_iff. apply Bool.not_true_iff_false. intros X.
    apply existsb_exists in X as [e [He X]]. destruct (ev_variant e) as [i|] eqn:V; [|discriminate]. apply String.eqb_eq in X.
    apply (N e He). congruence.
  - apply in_map_iff in Hg as [[b' g'] [X Hg]]. cbn [fst snd] in X. injection X as -> <-.
    destruct (String.eqb b "Non-Impacting") eqn:Q.
    + apply String.eqb_eq in Q. subst b. exfalso. cbn [map fst] in ND. inversion ND as [|? ? ND1 _]; subst. apply ND1.
      apply in_map_iff. exists ("Non-Impacting", g'). split; [reflexivity|exact Hg].
    + intros w Hw X. apply sort_In in Hw. pose proof (Gr b g' Hg) as Pm.
      assert (I : In (key w) (map key g')) by (apply in_map; exact Hw).
      apply (Permutation_in _ Pm) in I. apply in_map_iff in I as [u [U1 U2]]. apply filter_In in U2 as [_ U2].
      apply victim_true in U2 as [e [He [_ V]]]. apply (N e He). unfold key in U1. injection U1 as U1 _. congruence.
Qed.
Print Assumptions C264_partial.
(* every orbit at every epoch; its state is a label *)
Definition toy_propagate (os : list (string * string)) (ts : list row) : list (vrow string) :=
  flat_map (fun o => map (fun t => mkv (fst o) t (snd o)) ts) os.
Definition toy_from (q : Q) : row := day (Qfloor q).
Theorem C264_refuted : exists (vs : list (variant string)) (evs : list (event string)) times d v,
  generate toy_mjd toy_rescale toy_place toy_propagate toy_from vs "tdb" "tdb" evs (1440 # 1) (1440 # 1) = Ok (times, d)
  /\ In v vs /\ without_impact evs v
  /\ In ("Non-Impacting", []) d
  /\ exists g, In ("EARTH", g) d /\ In (mkv (va_variant v) (day 11) "sea") g /\ ~ In (mkv (va_variant v) (day 11) (va_state v)) g.
Proof.
  exists [mkvar "A" "0" "a"; mkvar "B" "0" "b"], [mke "A" (Some "0") (day 10) "EARTH" "sea"].
  do 2 eexists. exists (mkvar "B" "0" "b"). split; [vm_compute; reflexivity|].
  split; [right; left; reflexivity|]. split; [intros e [<-|[]] [X _]; discriminate|].
  split; [left; reflexivity|]. eexists. split; [right; left; reflexivity|].
  split; [do 4 right; left; reflexivity|]. intros X. cbn in X. repeat (destruct X as [X|X]; [discriminate|]). exact X.
Qed.
Print Assumptions C264_refuted.

(* ---- C265: the epochs ---- *)
Open Scope Q_scope.
Theorem C265_partial : forall {P C S} mjd rescale (place : C -> Q -> row -> P) (propagate : list (string * S) -> list row -> list (vrow P)) from_mjd
    vs pscale escale evs time_step time_range times d,
  generate mjd rescale place propagate from_mjd vs pscale escale evs time_step time_range = Ok (times, d) ->
  0 < time_step -> 0 <= time_range ->
  let step := time_step / 60 / 24 in let margin := time_range / 60 / 24 in
  exists first last k0 n, (1 <= n)%nat
  /\ times = map (fun k => from_mjd (inject_Z (k0 + Z.of_nat k) * step)) (seq 0 n)
  /\ (exists e, In e evs /\ mjd (ev_time e) = first) /\ (exists e, In e evs /\ mjd (ev_time e) = last)
  /\ (forall e, In e evs -> first <= mjd (ev_time e) <= last)
  /\ first - margin - step < inject_Z k0 * step <= first - margin
  /\ last + margin - step < inject_Z (k0 + Z.of_nat n - 1) * step < last + margin + step.
Proof.
  intros P C S mjd rescale place propagate from_mjd vs ps es evs st rg times d H Hs Hr step margin.
  unfold generate in H. destruct (existsb _ evs); [discriminate|]. destruct (map _ evs) as [|t ts] eqn:Mt; [discriminate|].
  destruct (grid _ _ _ _) as [mjds|] eqn:G; cbn [bind] in H; [|discriminate].
  destruct (prepare _ _ _ _ _ _ _ _) as [d0|] eqn:E; cbn [bind] in H; [|discriminate]. injection H as <- <-.
  assert (Q : 0 < step).
  { unfold step. unfold Qdiv. change (/ 60) with (1 # 60). change (/ 24) with (1 # 24). clear - Hs. Lqa.lra. }
  assert (M : 0 <= margin).
  { unfold margin. unfold Qdiv. change (/ 60) with (1 # 60). change (/ 24) with (1 # 24). clear - Hr. Lqa.lra. }
  unfold grid in G. fold step margin in G. destruct (Qeq_bool step 0) eqn:Z0.
  { apply Qeq_bool_eq in Z0. rewrite Z0 in Q. discriminate. }
  injection G as <-. rewrite (grid_floor _ _ _ Q).
  set (first := fold_left qmin ts t) in *. set (last := fold_left qmax ts t) in *.
  assert (I1 := fold_qmin_in ts t). assert (I2 := fold_qmax_in ts t). fold first in I1. fold last in I2.
  assert (FL : first <= last) by (apply fold_qmax; exact I1).
  destruct (window first last margin step Q M FL) as [W0 [W1 [W2 [W3 W4]]]].
  set (k0 := Qfloor ((first - margin) / step)) in *. set (n := Qceiling ((last + margin + step - (first - margin)) / step)) in *.
  exists first, last, k0, (Z.to_nat n).
  rewrite <- Mt in I1, I2. apply in_map_iff in I1 as [e1 [E1 E1']]. apply in_map_iff in I2 as [e2 [E2 E2']].
  split; [lia|]. split; [rewrite map_map; reflexivity|].
  split; [exists e1; split; assumption|]. split; [exists e2; split; assumption|].
  split. { intros e He. assert (X : In (mjd (ev_time e)) (t :: ts)) by (rewrite <- Mt; apply (in_map (fun e => mjd (ev_time e))); exact He).
    split; [apply fold_qmin; exact X|apply fold_qmax; exact X]. }
  rewrite Z2Nat.id by lia. split; [split; [|exact W1]|split; assumption].
  clear - W2. rewrite inject_Z_plus in W2. change (inject_Z 1) with 1 in W2. Lqa.lra.
Qed.
Print Assumptions C265_partial.
(* with a margin of at least one step every impact lies between the first and the last epoch *)
Theorem C265_cover : forall {P C S} mjd rescale (place : C -> Q -> row -> P) (propagate : list (string * S) -> list row -> list (vrow P)) from_mjd
    vs pscale escale evs time_step time_range times d,
  generate mjd rescale place propagate from_mjd vs pscale escale evs time_step time_range = Ok (times, d) ->
  0 < time_step -> time_step <= time_range ->
  forall e, In e evs -> exists a b, In (from_mjd a) times /\ In (from_mjd b) times /\ a < mjd (ev_time e) < b.
Proof.
  intros P C S mjd rescale place propagate from_mjd vs ps es evs st rg times d H Hs Hr e He.
  destruct (C265_partial mjd rescale place propagate from_mjd vs ps es evs st rg times d H Hs) as [first [last [k0 [n [N [T [_ [_ [B [L U]]]]]]]]]].
  { eapply Qle_trans; [apply Qlt_le_weak; exact Hs|exact Hr]. }
  assert (R : 0 < st / 60 / 24 <= rg / 60 / 24).
  { unfold Qdiv. change (/ 60) with (1 # 60). change (/ 24) with (1 # 24). clear - Hs Hr. Lqa.lra. }
  exists (inject_Z (k0 + Z.of_nat 0) * (st / 60 / 24)), (inject_Z (k0 + Z.of_nat (n - 1)) * (st / 60 / 24)).
  assert (IN : forall k, (k < n)%nat -> In (from_mjd (inject_Z (k0 + Z.of_nat k) * (st / 60 / 24))) times).
  { intros k Hk. rewrite T. apply (in_map (fun k => from_mjd (inject_Z (k0 + Z.of_nat k) * (st / 60 / 24)))). apply in_seq. lia. }
  split; [apply IN; lia|]. split; [apply IN; lia|].
  replace (k0 + Z.of_nat 0)%Z with k0 by lia. replace (k0 + Z.of_nat (n - 1))%Z with (k0 + Z.of_nat n - 1)%Z by lia.
  pose proof (B e He) as [B1 B2]. destruct L as [_ L]. destruct U as [U _]. destruct R as [R1 R2].
  split.
  - eapply Qle_lt_trans; [exact L|]. clear - B1 R1 R2. Lqa.lra.
  - eapply Qle_lt_trans; [|exact U]. clear - B2 R1 R2. Lqa.lra.
Qed.
Print Assumptions C265_cover.
(* the epochs need not reach the asked margin after the last impact, and with no margin they may miss the impact *)
Theorem C265_refuted :
  (exists l, grid (1 # 1440) (1 # 1440) 5 60 = Ok l /\ l <> [] /\ Forall (fun x => x < (1 # 1440) + 60 / 60 / 24) l)
  /\ (exists l, grid (1 # 1440) (1 # 1440) 5 0 = Ok l /\ l <> [] /\ Forall (fun x => x < 1 # 1440) l).
Proof.
  split; (eexists; split; [vm_compute; reflexivity|split; [discriminate|]]); repeat (constructor; [reflexivity|]); constructor.
Qed.
Print Assumptions C265_refuted.
Close Scope Q_scope.

(* ---- C266: the answer is sorted; when it fails ---- *)
Theorem C266_sorted : forall {P C S} mjd rescale (place : C -> Q -> row -> P) (propagate : list (string * S) -> list row -> list (vrow P)) from_mjd
    vs pscale escale evs time_step time_range times d,
  generate mjd rescale place propagate from_mjd vs pscale escale evs time_step time_range = Ok (times, d) ->
  exists d0, prepare mjd rescale place "ecliptic" pscale escale (propagate (map (fun a => (va_variant a, va_state a)) vs) times) evs = Ok d0
  /\ Forall2 (fun g0 g => fst g = fst g0 /\ Permutation (snd g0) (snd g) /\ StronglySorted earlier (snd g)
       /\ forall t, filter (fun v => (days (v_time v) =? days t) && (nanos (v_time v) =? nanos t))%bool (snd g)
                    = filter (fun v => (days (v_time v) =? days t) && (nanos (v_time v) =? nanos t))%bool (snd g0)) d0 d.
Proof.
  intros P C S mjd rescale place propagate from_mjd vs ps es evs st rg times d H.
  unfold generate in H. destruct (existsb _ evs); [discriminate|]. destruct (map _ evs) as [|t ts]; [discriminate|].
  destruct (grid _ _ _ _) as [mjds|] eqn:G; cbn [bind] in H; [|discriminate].
  destruct (prepare _ _ _ _ _ _ _ _) as [d0|] eqn:E; cbn [bind] in H; [|discriminate]. injection H as <- <-.
  exists d0. split; [exact E|]. clear E. induction d0 as [|g d0 IH]; cbn [map]; constructor; [|exact IH].
  split; [reflexivity|]. split; [apply sort_perm|]. split; [apply sorted_earlier|].
  intros t'. apply sort_filter. intros x y Hx Hy. apply leb_earlier. unfold earlier. lia.
Qed.
Print Assumptions C266_sorted.
Theorem C266_errors : forall {P C S} mjd rescale (place : C -> Q -> row -> P) (propagate : list (string * S) -> list row -> list (vrow P)) from_mjd
    vs pscale escale evs time_step time_range,
  let out := generate mjd rescale place propagate from_mjd vs pscale escale evs time_step time_range in
  (out = Err ValueError <-> evs = [] \/ exists e, In e evs /\ ev_body e <> "EARTH" /\ ev_body e <> "MOON")
  /\ (out = Err ZeroDivisionError <-> (time_step == 0)%Q /\ evs <> [] /\ forall e, In e evs -> ev_body e = "EARTH" \/ ev_body e = "MOON")
  /\ (forall x, out = Err x -> x = ValueError \/ x = ZeroDivisionError).
Proof.
  intros P C S mjd rescale place propagate from_mjd vs ps es evs st rg out.
  assert (Z : Qeq_bool (st / 60 / 24) 0 = true <-> (st == 0)%Q).
  { rewrite Qeq_bool_iff. unfold Qdiv. change (/ 60)%Q with (1 # 60)%Q. change (/ 24)%Q with (1 # 24)%Q. split; intros E; Lqa.lra. }
  unfold out, generate. clear out. destruct (existsb _ evs) eqn:X.
  - apply existsb_exists in X as [e [He X]]. apply Bool.negb_true_iff, Bool.orb_false_iff in X as [X1 X2]. apply String.eqb_neq in X1, X2.
    split; [|split].
    + split; [intros _; right; exists e; repeat split; assumption|reflexivity].
    + split; [discriminate|]. intros [_ [_ B]]. destruct (B e He); contradiction.
    + intros x [= <-]. left. reflexivity.
  - assert (B : forall e, In e evs -> ev_body e = "EARTH" \/ ev_body e = "MOON").
    { intros e He. destruct (String.eqb (ev_body e) "EARTH") eqn:Y1; [left; apply String.eqb_eq; exact Y1|].
      destruct (String.eqb (ev_body e) "MOON") eqn:Y2; [right; apply String.eqb_eq; exact Y2|]. exfalso.
      apply Bool.not_true_iff_false in X. apply X. apply existsb_exists. exists e. split; [exact He|]. rewrite Y1, Y2. reflexivity. }
    assert (NB : ~ exists e, In e evs /\ ev_body e <> "EARTH" /\ ev_body e <> "MOON").
    { intros [e [He [Y1 Y2]]]. destruct (B e He); contradiction. }
    destruct (map _ evs) as [|t ts] eqn:Mt.
    + apply map_eq_nil in Mt. subst evs. split; [|split].
      * split; [intros _; left; reflexivity|reflexivity].
      * split; [discriminate|]. intros [_ [Y _]]. contradiction.
      * intros x [= <-]. left. reflexivity.
    + assert (NE : evs <> []) by (intros ->; discriminate).
      unfold grid. destruct (Qeq_bool (st / 60 / 24) 0) eqn:Z0; cbn [bind].
      * split; [|split].
        -- split; [discriminate|]. intros [Y|Y]; contradiction.
        -- split; [intros _; split; [apply Z; reflexivity|split; assumption]|reflexivity].
        -- intros x [= <-]. right. reflexivity.
      * match goal with |- context [prepare _ _ _ _ _ _ ?r _] => destruct (prepare_ok mjd rescale place ps es r evs) as [d D] end.
        { apply Forall_forall. exact B. }
        rewrite D. cbn [bind]. split; [|split].
        -- split; [discriminate|]. intros [Y|Y]; contradiction.
        -- split; [discriminate|]. intros [Y _]. apply Z in Y. discriminate.
        -- discriminate.
Qed.
Print Assumptions C266_errors.
(* two variants, three epochs a day apart, one impact *)
Example C266_case :
  generate toy_mjd toy_rescale toy_place toy_propagate toy_from [mkvar "A" "0" "a"; mkvar "A" "1" "b"] "tdb" "tdb"
    [mke "A" (Some "0") (day 10) "EARTH" "sea"] (1440 # 1)%Q (1440 # 1)%Q
  = Ok ([day 9; day 10; day 11],
        [("Non-Impacting", [mkv "1" (day 9) "b"; mkv "1" (day 10) "b"; mkv "1" (day 11) "b"]);
         ("EARTH", [mkv "0" (day 9) "a"; mkv "0" (day 10) "sea"; mkv "0" (day 11) "sea"])]).
Proof. reflexivity. Qed.
