(* Properties of the scipy differential corrector. *)
From Coq Require Import Reals Lra Lia ZArith String List Bool Sorted.
From Verif Require Import Base ListLemmas StrOrder SphModel FitModel DcModel DcSpec DcProofs.
Import ListNotations.
Open Scope string_scope.
Open Scope list_scope.
Open Scope R_scope.

(* ---- C203: the correction does not make the fit worse ---- *)
Theorem C203_never_worse_partial : forall {V P Rr} (predict : phys -> Z * Z -> string -> P) (resid : V -> P -> Rr) (chi2 : Rr -> R) dof solve inv o obs ignore kw d ms,
  (forall r, 0 <= chi2 r) -> never_increases solve -> heliocentric_tdb (do_phys o) -> in_order obs ->
  fit_least_squares predict resid chi2 dof solve inv [o] obs ignore kw = Ok (d, ms) ->
  orbit_chi2 predict resid chi2 (do_phys (df_orbit d)) obs ignore <= orbit_chi2 predict resid chi2 (do_phys o) obs ignore.
Proof.
  intros V P Rr predict resid chi2 dof solve inv o obs ig kw d ms POS NI (H1 & H2 & H3) ORD F. apply fit_inv in F as (o' & sol & E & S & F). injection E as <-. cbv zeta in F.
  destruct F as (FO & _). rewrite FO. cbn [do_phys]. specialize (NI _ _ _ _ S).
  assert (ORD' : in_order (filter (fun b => negb (ignored ig b)) obs)) by (apply filter_in_order; exact ORD).
  rewrite !(cost_own predict resid chi2 POS) in NI by exact ORD'. destruct (do_phys o) as [st m sc og fr]. cbn in *. subst. exact NI.
Qed.
Print Assumptions C203_never_worse_partial.
(* the chi2 and the residuals reported are those of the orbit returned, whatever its labels *)
Theorem C203_reported : forall {V P Rr} (predict : phys -> Z * Z -> string -> P) (resid : V -> P -> Rr) (chi2 : Rr -> R) dof solve inv o obs ignore kw d ms,
  in_order obs -> fit_least_squares predict resid chi2 dof solve inv [o] obs ignore kw = Ok (d, ms) ->
  df_chi2 d = orbit_chi2 predict resid chi2 (do_phys (df_orbit d)) obs ignore /\
  map dm_resid ms = map (fun b => resid (ob_value b) (predict (do_phys (df_orbit d)) (ob_time b) (ob_code b))) obs.
Proof.
  intros V P Rr predict resid chi2 dof solve inv o obs ig kw d ms ORD F. apply fit_inv in F as (o' & sol & E & S & F). injection E as <-. cbv zeta in F.
  destruct F as (FO & _ & FC & _ & _ & _ & FM). rewrite FO, FC, FM. cbn [do_phys]. split; [apply chi2_own; exact ORD|].
  rewrite (residuals_own predict resid) by exact ORD. rewrite combine_map_r, !map_map. reflexivity.
Qed.
Print Assumptions C203_reported.

(* a solver that tries one state and keeps the better of the two *)
Definition try_state (y : row6) (f : row6 -> list R) (x : row6) (_ : list (string * kwvalue)) : result solution :=
  Ok (mksol (if Rle_dec (sum_of_squares (f y)) (sum_of_squares (f x)) then y else x) [] 2 true 1).
Lemma try_never : forall y, never_increases (try_state y).
Proof. intros y f x kw sol H. injection H as <-. cbn [so_x]. destruct (Rle_dec _ _); [exact r|lra]. Qed.
Definition xstate (x : R) : row6 := mk6 x 0 0 0 0 0.
(* a place along one axis; the axes of any other origin, frame or scale start one unit away *)
Definition shifted (std : phys -> bool) (ph : phys) (_ : Z * Z) (_ : string) : R := c_0 (ph_state ph) + (if std ph then 0 else 1).
Definition square (r : R) : R := r * r.
Definition one_obs : list (observation (V := R)) := [mkobs "obs" (60000, 0)%Z "500" 1].
Definition std_axes (ph : phys) : bool := String.eqb (ph_origin ph) "SUN" && String.eqb (ph_frame ph) "ecliptic".
Definition std_scale (ph : phys) : bool := String.eqb (ph_scale ph) "tdb".
Lemma one_in_order : in_order one_obs.
Proof. repeat constructor. Qed.

Theorem C203_axes_refuted : forall origin frame, ~ (origin = "SUN" /\ frame = "ecliptic") ->
  exists (predict : phys -> Z * Z -> string -> R) (resid : R -> R -> R) chi2 dof solve inv o obs d ms,
    (forall r, 0 <= chi2 r) /\ never_increases solve /\ in_order obs /\
    ph_scale (do_phys o) = "tdb" /\ ph_origin (do_phys o) = origin /\ ph_frame (do_phys o) = frame /\
    fit_least_squares predict resid chi2 dof solve inv [o] obs [] [] = Ok (d, ms) /\
    orbit_chi2 predict resid chi2 (do_phys o) obs [] = 0 /\ orbit_chi2 predict resid chi2 (do_phys (df_orbit d)) obs [] = 1.
Proof.
  intros og fr N. exists (shifted std_axes), Rminus, square, (fun _ => 1%Z), (try_state (xstate 1)), (fun _ => None), (mkdo "o" None (mkphys (xstate 0) 60000 "tdb" og fr) None), one_obs.
  assert (A : (String.eqb og "SUN" && String.eqb fr "ecliptic")%bool = false).
  { apply not_true_is_false. intro T. apply andb_true_iff in T as [T1 T2]. apply String.eqb_eq in T1. apply String.eqb_eq in T2. tauto. }
  assert (C : sum_of_squares (residual_function (shifted std_axes) Rminus square 60000 one_obs (xstate 1)) <= sum_of_squares (residual_function (shifted std_axes) Rminus square 60000 one_obs (xstate 0))).
  { unfold residual_function, residuals, one_obs, sum_of_squares. cbn [sort insert map combine fst snd total ob_value].
    unfold shifted, std_axes, xstate. cbn [ph_state c_0 ph_origin ph_frame String.eqb Ascii.eqb Bool.eqb andb]. rewrite !sqrt_def by (unfold square; nra). unfold square. lra. }
  unfold fit_least_squares, try_state. cbn [do_phys ph_mjd ph_state]. unfold ignored at 1. cbn [existsb negb one_obs filter].
  fold one_obs. destruct (Rle_dec _ _) as [L|L]; [|contradiction]. cbn [bind so_x so_jac so_nfev so_success so_status ph_origin ph_frame do_id do_object].
  unfold evaluate_one. cbn [one_obs filter existsb ignored negb bind fst snd df_orbit df_arc df_nobs df_chi2 df_reduced do_phys]. do 2 eexists.
  split; [intro r; apply Rle_0_sqr|]. split; [apply try_never|]. split; [apply one_in_order|]. do 3 (split; [reflexivity|]). split; [reflexivity|].
  cbn [df_orbit do_phys]. unfold orbit_chi2, one_obs. cbn [filter existsb negb map total ob_value ob_time ob_code]. unfold shifted, std_axes, xstate, square. cbn [ph_state c_0 ph_origin ph_frame].
  rewrite A. split; lra.
Qed.
Print Assumptions C203_axes_refuted.

Theorem C203_scale_refuted : forall scale, scale <> "tdb" ->
  exists (predict : phys -> Z * Z -> string -> R) (resid : R -> R -> R) chi2 dof solve inv o obs d ms,
    (forall r, 0 <= chi2 r) /\ never_increases solve /\ in_order obs /\
    ph_scale (do_phys o) = scale /\ ph_origin (do_phys o) = "SUN" /\ ph_frame (do_phys o) = "ecliptic" /\
    fit_least_squares predict resid chi2 dof solve inv [o] obs [] [] = Ok (d, ms) /\
    orbit_chi2 predict resid chi2 (do_phys o) obs [] = 0 /\ orbit_chi2 predict resid chi2 (do_phys (df_orbit d)) obs [] = 1.
Proof.
  intros sc N. exists (shifted std_scale), Rminus, square, (fun _ => 1%Z), (try_state (xstate 0)), (fun _ => None), (mkdo "o" None (mkphys (xstate 0) 60000 sc "SUN" "ecliptic") None), one_obs.
  assert (A : String.eqb sc "tdb" = false) by (apply String.eqb_neq; exact N).
  unfold fit_least_squares, try_state. cbn [do_phys ph_mjd ph_state]. unfold ignored at 1. cbn [existsb negb one_obs filter].
  fold one_obs. destruct (Rle_dec _ _) as [L|L]; [|exfalso; apply L; apply Rle_refl]. cbn [bind so_x so_jac so_nfev so_success so_status ph_origin ph_frame do_id do_object].
  unfold evaluate_one. cbn [one_obs filter existsb ignored negb bind fst snd df_orbit df_arc df_nobs df_chi2 df_reduced do_phys]. do 2 eexists.
  split; [intro r; apply Rle_0_sqr|]. split; [apply try_never|]. split; [apply one_in_order|]. do 3 (split; [reflexivity|]). split; [reflexivity|].
  cbn [df_orbit do_phys]. unfold orbit_chi2, one_obs. cbn [filter existsb negb map total ob_value ob_time ob_code]. unfold shifted, std_scale, xstate, square. cbn [ph_state c_0 ph_scale].
  rewrite A. cbn [String.eqb Ascii.eqb Bool.eqb]. split; lra.
Qed.
Print Assumptions C203_scale_refuted.

(* ---- C204: the orbit returned refers to the epoch of the orbit given ---- *)
Theorem C204_epoch_partial : forall {V P Rr} (predict : phys -> Z * Z -> string -> P) (resid : V -> P -> Rr) chi2 dof solve inv o obs ignore kw d ms,
  fit_least_squares predict resid chi2 dof solve inv [o] obs ignore kw = Ok (d, ms) -> ph_scale (do_phys o) = "tdb" ->
  ph_mjd (do_phys (df_orbit d)) = ph_mjd (do_phys o) /\ ph_scale (do_phys (df_orbit d)) = ph_scale (do_phys o).
Proof.
  intros V P Rr predict resid chi2 dof solve inv o obs ig kw d ms F T. apply fit_inv in F as (o' & sol & E & _ & F). injection E as <-. cbv zeta in F. destruct F as (FO & _). rewrite FO. cbn. auto.
Qed.
Print Assumptions C204_epoch_partial.
(* [instant] gives the moment, in any one scale, of a number of days in a scale *)
Theorem C204_epoch_refuted : forall {V P Rr} (predict : phys -> Z * Z -> string -> P) (resid : V -> P -> Rr) chi2 dof solve inv o obs ignore kw d ms (instant : string -> R -> R),
  fit_least_squares predict resid chi2 dof solve inv [o] obs ignore kw = Ok (d, ms) ->
  let given := instant (ph_scale (do_phys o)) (ph_mjd (do_phys o)) in
  let returned := instant (ph_scale (do_phys (df_orbit d))) (ph_mjd (do_phys (df_orbit d))) in
  returned - given = instant "tdb" (ph_mjd (do_phys o)) - instant (ph_scale (do_phys o)) (ph_mjd (do_phys o)).
Proof.
  intros V P Rr predict resid chi2 dof solve inv o obs ig kw d ms inst F. apply fit_inv in F as (o' & sol & E & _ & F). injection E as <-. cbv zeta in *. destruct F as (FO & _). rewrite FO. reflexivity.
Qed.
Print Assumptions C204_epoch_refuted.

(* ---- C205: what is returned about the fit and its members ---- *)
Theorem C205_members : forall {V P Rr} (predict : phys -> Z * Z -> string -> P) (resid : V -> P -> Rr) chi2 dof solve inv o obs ignore kw d ms,
  fit_least_squares predict resid chi2 dof solve inv [o] obs ignore kw = Ok (d, ms) ->
  map dm_obs ms = map ob_id obs /\
  (forall m, In m ms -> dm_orbit m = do_id o /\ (dm_outlier m = true <-> In (dm_obs m) ignore) /\ dm_solution m = Some (negb (dm_outlier m))) /\
  df_nobs d = List.length (filter (fun m => negb (dm_outlier m)) ms) /\ (0 < df_nobs d)%nat /\
  do_id (df_orbit d) = do_id o /\ do_object (df_orbit d) = do_object o /\
  ph_origin (do_phys (df_orbit d)) = ph_origin (do_phys o) /\ ph_frame (do_phys (df_orbit d)) = ph_frame (do_phys o).
Proof.
  intros V P Rr predict resid chi2 dof solve inv o obs ig kw d ms F.
  assert (NE : (0 < df_nobs d)%nat).
  { unfold fit_least_squares in F. destruct (solve _ _ _) as [sol|]; [|discriminate]. cbn [bind] in F. unfold evaluate_one in F. cbn [do_phys do_id] in F.
    destruct (filter (fun b => negb (ignored ig b)) obs) as [|u us] eqn:U; [discriminate|]. cbn [bind fst snd df_nobs] in F. injection F as <- _. cbn [df_nobs List.length]. lia. }
  apply fit_inv in F as (o' & sol & E & _ & F). injection E as <-. cbv zeta in F. destruct F as (FO & FN & _ & _ & _ & _ & FM).
  set (p := mkphys _ _ _ _ _) in *. pose proof (residuals_length predict resid p obs) as L.
  assert (C1 : map fst (combine obs (residuals predict resid p obs)) = obs).
  { revert L. generalize (residuals predict resid p obs). clear. induction obs as [|b l IH]; intros [|r rs] L; try discriminate; [reflexivity|]. cbn [combine map fst]. rewrite IH; [reflexivity|]. cbn in L. lia. }
  split; [rewrite FM, map_map; cbn [dm_obs]; rewrite <- (map_map fst ob_id), C1; reflexivity|].
  split.
  { intros m M. rewrite FM in M. apply in_map_iff in M as (q & <- & _). cbn [dm_orbit dm_outlier dm_obs dm_solution]. split; [reflexivity|]. split; [|reflexivity].
    unfold ignored. rewrite existsb_exists. split; [intros (x & X & Q); apply String.eqb_eq in Q; subst; exact X|intro X; exists (ob_id (fst q)); rewrite String.eqb_refl; auto]. }
  split.
  { rewrite FN, FM. rewrite <- C1 at 1. generalize (combine obs (residuals predict resid p obs)). clear. induction l as [|q l IH]; [reflexivity|]. cbn [map filter dm_outlier]. destruct (negb _); cbn [List.length]; lia. }
  split; [exact NE|]. rewrite FO. cbn. auto.
Qed.
Print Assumptions C205_members.
Theorem C205_one_orbit : forall {V P Rr} (predict : phys -> Z * Z -> string -> P) (resid : V -> P -> Rr) chi2 dof solve inv os obs ignore kw,
  List.length os <> 1%nat -> fit_least_squares predict resid chi2 dof solve inv os obs ignore kw = Err AssertionError.
Proof. intros. destruct os as [|o [|? ?]]; cbn in *; [reflexivity|lia|reflexivity]. Qed.
Print Assumptions C205_one_orbit.

(* ---- C206: the covariance ---- *)
Theorem C206_few_refuted : forall {V P Rr} (predict : phys -> Z * Z -> string -> P) (resid : V -> P -> Rr) chi2 dof solve inv o obs ignore kw d ms,
  inverts inv -> (forall f x kw sol, solve f x kw = Ok sol -> List.length (so_jac sol) = List.length (f x)) ->
  fit_least_squares predict resid chi2 dof solve inv [o] obs ignore kw = Ok (d, ms) -> (df_nobs d < 6)%nat ->
  do_cov (df_orbit d) = None.
Proof.
  intros V P Rr predict resid chi2 dof solve inv o obs ig kw d ms I J F N. apply fit_inv in F as (o' & sol & E & S & F). injection E as <-. cbv zeta in F. destruct F as (FO & FN & _).
  rewrite FO. cbn [do_cov]. apply singular_none; [exact I|]. apply normal_singular. rewrite (J _ _ _ _ S). unfold residual_function. rewrite map_length, residuals_length. lia.
Qed.
Print Assumptions C206_few_refuted.

(* three sightings that measure the six numbers of the state itself, two at a time, with unit errors *)
Definition measure (ph : phys) (t : Z * Z) (_ : string) : R * R :=
  let s := ph_state ph in if Z.eqb (fst t) 1 then (c_0 s, c_1 s) else if Z.eqb (fst t) 2 then (c_2 s, c_3 s) else (c_4 s, c_5 s).
Definition minus2 (a b : R * R) : R * R := (fst a - fst b, snd a - snd b).
Definition chi2_2 (r : R * R) : R := fst r * fst r + snd r * snd r.
Definition three (v : row6) : list (observation (V := R * R)) :=
  [mkobs "a" (1, 0)%Z "500" (c_0 v, c_1 v); mkobs "b" (2, 0)%Z "500" (c_2 v, c_3 v); mkobs "c" (3, 0)%Z "500" (c_4 v, c_5 v)].
Lemma three_in_order : forall v, in_order (three v).
Proof. intro v. repeat constructor. Qed.
(* the errors of the six numbers are known to be one each, and still no covariance is returned *)
Theorem C206_complete_refuted : forall v dof solve inv o kw d ms,
  inverts inv -> (forall f x kw sol, solve f x kw = Ok sol -> List.length (so_jac sol) = List.length (f x)) ->
  (forall ph, orbit_chi2 measure minus2 chi2_2 ph (three v) [] =
     (c_0 v - c_0 (ph_state ph)) ^ 2 + (c_1 v - c_1 (ph_state ph)) ^ 2 + (c_2 v - c_2 (ph_state ph)) ^ 2 +
     (c_3 v - c_3 (ph_state ph)) ^ 2 + (c_4 v - c_4 (ph_state ph)) ^ 2 + (c_5 v - c_5 (ph_state ph)) ^ 2) /\
  (fit_least_squares measure minus2 chi2_2 dof solve inv [o] (three v) [] kw = Ok (d, ms) -> do_cov (df_orbit d) = None).
Proof.
  intros v dof solve inv o kw d ms I J. split.
  - intro ph. unfold orbit_chi2, three. cbn [filter existsb negb map total ob_value ob_time ob_code]. unfold measure, minus2, chi2_2. cbn [fst snd Z.eqb Pos.eqb]. ring.
  - intro F. apply (C206_few_refuted measure minus2 chi2_2 dof solve inv o (three v) [] kw d ms I J F). apply fit_inv in F as (o' & sol & E & S & F). cbv zeta in F. destruct F as (_ & FN & _). rewrite FN. cbn. lia.
Qed.
Print Assumptions C206_complete_refuted.

(* what is returned as covariance is the inverse of the sum of the outer products of the rows of the solver's Jacobian *)
Theorem C206_inverse_partial : forall {V P Rr} (predict : phys -> Z * Z -> string -> P) (resid : V -> P -> Rr) chi2 dof solve inv o obs ignore kw d ms c,
  inverts inv -> fit_least_squares predict resid chi2 dof solve inv [o] obs ignore kw = Ok (d, ms) -> do_cov (df_orbit d) = Some c ->
  exists f kw' sol, solve f (ph_state (do_phys o)) kw' = Ok sol /\ so_x sol = ph_state (do_phys (df_orbit d)) /\
    identity_product c (fun a b => total (map (fun r => r a * r b) (so_jac sol))).
Proof.
  intros V P Rr predict resid chi2 dof solve inv o obs ig kw d ms c [I _] F C. apply fit_inv in F as (o' & sol & E & S & F). injection E as <-. cbv zeta in F. destruct F as (FO & _).
  rewrite FO in C. cbn [do_cov] in C. do 2 eexists. exists sol. split; [exact S|]. rewrite FO. split; [reflexivity|]. destruct (I _ _ C) as [_ H]. intros a b A B. rewrite <- (H a b A B).
  apply total_ext. intros k _. reflexivity.
Qed.
Print Assumptions C206_inverse_partial.

(* the information in the rows of the Jacobian of chi never exceeds that of the components of the residuals:
   [parts b] are the whitened components of the residual of b as functions of the step t along x, [slopes b] their derivatives *)
Theorem C206_information_partial : forall {V P Rr} (predict : phys -> Z * Z -> string -> P) (resid : V -> P -> Rr) chi2 mjd obs s x jac (parts : observation (V := V) -> list (R -> R)) (slopes : observation (V := V) -> list R),
  in_order obs ->
  (forall b, In b obs ->
     (forall t, chi2 (resid (ob_value b) (predict (mkphys (along s x t) mjd "tdb" "SUN" "ecliptic") (ob_time b) (ob_code b))) = sum_of_squares (map (fun r => r t) (parts b))) /\
     Forall2 (fun r d => derivable_pt_lim r 0 d) (parts b) (slopes b) /\ 0 < sum_of_squares (map (fun r => r 0) (parts b))) ->
  List.length jac = List.length obs ->
  (forall i, (i < List.length jac)%nat ->
     derivable_pt_lim (fun t => nth i (residual_function predict resid chi2 mjd obs (along s x t)) 0) 0 (dot_n 6 (nth i jac (fun _ => 0)) x)) ->
  total (map (fun a => x a * dot_n 6 (normal_matrix jac a) x) (seq 0 6)) <= total (map (fun b => sum_of_squares (slopes b)) obs).
Proof.
  intros V P Rr predict resid chi2 mjd obs s x jac parts slopes ORD H L D. rewrite normal_form.
  assert (D' : forall i b, nth_error obs i = Some b -> derivable_pt_lim (fun t => sqrt (sum_of_squares (map (fun r => r t) (parts b)))) 0 (dot_n 6 (nth i jac (fun _ => 0)) x)).
  { intros i b B. assert (LT : (i < List.length obs)%nat) by (apply nth_error_Some; rewrite B; discriminate). specialize (D i ltac:(lia)).
    assert (Q : forall t, nth i (residual_function predict resid chi2 mjd obs (along s x t)) 0 = sqrt (sum_of_squares (map (fun r => r t) (parts b)))).
    { intro t. unfold residual_function. rewrite (residuals_own predict resid) by exact ORD. rewrite map_map.
      apply nth_error_nth. erewrite map_nth_error by exact B. f_equal. f_equal. destruct (H b (nth_error_In _ _ B)) as (H1 & _). apply H1. }
    intros e E. destruct (D e E) as (delta & Z). exists delta. intros h H0 H1. specialize (Z h H0 H1). rewrite !Q in Z. exact Z. }
  clear D ORD. revert jac L D' H. induction obs as [|b l IH]; intros [|j jac] L D' H; try discriminate; cbn [map total]; [lra|].
  apply Rplus_le_compat.
  - destruct (H b (or_introl eq_refl)) as (_ & H2 & H3). eapply (chi_information (parts b) (slopes b)); [exact H2|intro t; reflexivity|exact H3|]. exact (D' 0%nat b eq_refl).
  - apply IH; [cbn in L; lia|intros i c C; exact (D' (S i) c C)|intros c C; apply H; right; exact C].
Qed.
Print Assumptions C206_information_partial.

(* ---- C207: the settings of the solver ---- *)
Definition documented (k : string) : option kwvalue :=
  if String.eqb k "xtol" || String.eqb k "ftol" || String.eqb k "gtol" then Some (KNum (1 / 1000000000000))
  else if String.eqb k "jac" then Some (KText "2-point") else if String.eqb k "x_scale" then Some (KText "jac")
  else if String.eqb k "bounds" then Some KFree else None.
Lemma kw_get_app : forall k a b, kw_get k (a ++ b) = match kw_get k a with Some v => Some v | None => kw_get k b end.
Proof. intros k a b. unfold kw_get. induction a as [|[n v] a IH]; [reflexivity|]. cbn [app find fst]. destruct (String.eqb n k); [reflexivity|exact IH]. Qed.
Lemma kw_get_default : forall k kw d, kw_get k (add_default kw d) = match kw_get k kw with Some v => Some v | None => if String.eqb (fst d) k then Some (snd d) else None end.
Proof.
  intros k kw [n v]. unfold add_default. cbn [fst snd]. destruct (kw_get n kw) as [w|] eqn:E.
  - destruct (kw_get k kw) eqn:F; [reflexivity|]. destruct (String.eqb_spec n k) as [->|]; [congruence|reflexivity].
  - rewrite kw_get_app. destruct (kw_get k kw); [reflexivity|]. unfold kw_get. cbn [find fst]. destruct (String.eqb n k); reflexivity.
Qed.
Lemma kw_get_filter : forall k kw, kw_get k (filter (fun p => negb (String.eqb (fst p) "args")) kw) = if String.eqb k "args" then None else kw_get k kw.
Proof.
  intros k kw. unfold kw_get. induction kw as [|[n v] l IH]; cbn [filter find fst]; [destruct (String.eqb k "args"); reflexivity|].
  destruct (String.eqb_spec n "args") as [->|N]; cbn [negb].
  - rewrite IH. destruct (String.eqb_spec k "args") as [->|K]; [reflexivity|]. destruct (String.eqb_spec "args" k); [congruence|reflexivity].
  - cbn [find fst]. destruct (String.eqb_spec n k) as [->|M]; [|exact IH]. destruct (String.eqb_spec k "args"); [contradiction|reflexivity].
Qed.
Theorem C207_settings : forall {V P Rr} (predict : phys -> Z * Z -> string -> P) (resid : V -> P -> Rr) chi2 dof solve inv o obs ignore kw d ms,
  fit_least_squares predict resid chi2 dof solve inv [o] obs ignore kw = Ok (d, ms) ->
  exists f kw' sol, solve f (ph_state (do_phys o)) kw' = Ok sol /\
    (forall k, kw_get k kw' = if String.eqb k "args" then None else match kw_get k kw with Some v => Some v | None => documented k end) /\
    so_x sol = ph_state (do_phys (df_orbit d)) /\
    df_iterations d = Some (so_nfev sol) /\ df_success d = Some (so_success sol) /\ df_status d = Some (so_status sol).
Proof.
  intros V P Rr predict resid chi2 dof solve inv o obs ig kw d ms F. apply fit_inv in F as (o' & sol & E & S & F). injection E as <-. cbv zeta in F. destruct F as (FO & _ & _ & FI & FS & FT & _).
  do 2 eexists. exists sol. split; [exact S|]. split; [|rewrite FO; cbn; auto]. clear. intro k. unfold solver_kwargs. rewrite kw_get_filter. destruct (String.eqb_spec k "args") as [|N]; [reflexivity|].
  unfold kw_defaults. cbn [fold_left]. rewrite !kw_get_default. cbn [fst snd]. destruct (kw_get k kw); [reflexivity|]. unfold documented.
  assert (T : / 10 ^ 12 = 1 / 1000000000000) by (replace (10 ^ 12) with 1000000000000 by lra; lra). rewrite T.
  rewrite (String.eqb_sym "xtol" k), (String.eqb_sym "ftol" k), (String.eqb_sym "gtol" k), (String.eqb_sym "jac" k), (String.eqb_sym "x_scale" k), (String.eqb_sym "bounds" k). destruct (String.eqb k "xtol"), (String.eqb k "ftol"), (String.eqb k "gtol"), (String.eqb k "jac"), (String.eqb k "x_scale"), (String.eqb k "bounds"); reflexivity.
Qed.
Print Assumptions C207_settings.

(* ---- concrete cases ---- *)
(* a tdb orbit about the Sun at 0, one observation at 1: the correction moves the orbit there *)
Example C203_case : exists d ms,
  fit_least_squares (shifted std_axes) Rminus square (fun _ => 1%Z) (try_state (xstate 1)) (fun _ => None) [mkdo "o" None (mkphys (xstate 0) 60000 "tdb" "SUN" "ecliptic") None] one_obs [] [] = Ok (d, ms) /\
  heliocentric_tdb (mkphys (xstate 0) 60000 "tdb" "SUN" "ecliptic") /\
  orbit_chi2 (shifted std_axes) Rminus square (mkphys (xstate 0) 60000 "tdb" "SUN" "ecliptic") one_obs [] = 1 /\ df_chi2 d = 0 /\ df_nobs d = 1%nat.
Proof.
  assert (C : sum_of_squares (residual_function (shifted std_axes) Rminus square 60000 one_obs (xstate 1)) <= sum_of_squares (residual_function (shifted std_axes) Rminus square 60000 one_obs (xstate 0))).
  { unfold residual_function, residuals, one_obs, sum_of_squares. cbn [sort insert map combine fst snd total ob_value].
    unfold shifted, std_axes, xstate. cbn [ph_state c_0 ph_origin ph_frame String.eqb Ascii.eqb Bool.eqb andb]. rewrite !sqrt_def by (unfold square; nra). unfold square. lra. }
  unfold fit_least_squares, try_state. cbn [do_phys ph_mjd ph_state]. unfold ignored at 1. cbn [existsb negb one_obs filter].
  fold one_obs. destruct (Rle_dec _ _) as [L|L]; [|contradiction]. cbn [bind so_x so_jac so_nfev so_success so_status ph_origin ph_frame do_id do_object].
  unfold evaluate_one. cbn [one_obs filter existsb ignored negb bind fst snd df_orbit df_arc df_nobs df_chi2 df_reduced do_phys]. do 2 eexists.
  split; [reflexivity|]. split; [repeat split|]. cbn [df_chi2 df_nobs].
  unfold orbit_chi2, one_obs, residuals. cbn [sort insert filter existsb negb ignored map total combine fst snd rsum_ fold_right ob_value ob_time ob_code]. unfold shifted, std_axes, xstate, square. cbn [ph_state c_0 ph_origin ph_frame String.eqb Ascii.eqb Bool.eqb andb].
  repeat split; try lra.
Qed.
(* a UTC orbit: with TDB 69.184 s ahead of UTC, the epoch returned is 69.184 s too early *)
Example C204_case : exists d ms,
  fit_least_squares (shifted std_axes) Rminus square (fun _ => 1%Z) (try_state (xstate 0)) (fun _ => None) [mkdo "o" None (mkphys (xstate 0) 60000 "utc" "SUN" "ecliptic") None] one_obs [] [] = Ok (d, ms) /\
  let tdb sc m := if String.eqb sc "utc" then m + 69184 / 86400000 else m in
  tdb (ph_scale (do_phys (df_orbit d))) (ph_mjd (do_phys (df_orbit d))) - tdb "utc" 60000 = - (69184 / 86400000).
Proof.
  unfold fit_least_squares, try_state. cbn [do_phys ph_mjd ph_state]. unfold ignored at 1. cbn [existsb negb one_obs filter]. cbn [bind so_x so_jac so_nfev so_success so_status ph_origin ph_frame do_id do_object].
  unfold evaluate_one. cbn [one_obs filter existsb ignored negb bind fst snd df_orbit df_arc df_nobs df_chi2 df_reduced do_phys]. do 2 eexists.
  split; [reflexivity|]. cbv zeta. cbn [df_orbit do_phys ph_scale ph_mjd String.eqb Ascii.eqb Bool.eqb]. lra.
Qed.
(* two observations, one of them ignored *)
Example C205_case : exists d ms,
  fit_least_squares (shifted std_axes) Rminus square (fun _ => 1%Z) (try_state (xstate 0)) (fun _ => None) [mkdo "o" (Some "b") (mkphys (xstate 0) 60000 "tdb" "SUN" "ecliptic") None]
    [mkobs "x" (60000, 0)%Z "500" 1; mkobs "y" (60001, 0)%Z "500" 2] ["y"] [("xtol", KNum 1); ("args", KOther 0)] = Ok (d, ms) /\
  map dm_obs ms = ["x"; "y"] /\ map dm_outlier ms = [false; true] /\ map dm_solution ms = [Some true; Some false] /\ df_nobs d = 1%nat /\ df_iterations d = Some 2%Z.
Proof. do 2 eexists. split; [reflexivity|]. repeat split. Qed.
(* residuals (t, 1) of one observation: chi has slope 0 there, although the first component measures the state *)
Example C206_case : 
  derivable_pt_lim (fun t => sqrt (sum_of_squares (map (fun r => r t) [(fun t => t); (fun _ => 1)]))) 0 0 /\
  Forall2 (fun r d => derivable_pt_lim r 0 d) [(fun t => t); (fun _ => 1)] [1; 0] /\ sum_of_squares [1; 0] = 1 /\ (0 * 0 < sum_of_squares [1; 0]).
Proof.
  assert (D : Forall2 (fun r d => derivable_pt_lim r 0 d) [(fun t => t); (fun _ => 1)] [1; 0]).
  { repeat constructor; [apply derivable_pt_lim_id|apply derivable_pt_lim_const]. }
  split; [|split; [exact D|unfold sum_of_squares; cbn [map total]; split; lra]].
  pose proof (derive_squares _ _ D) as Q. cbn [map combine total fst snd] in Q.
  assert (S1 : sum_of_squares [0; 1] = 1) by (unfold sum_of_squares; cbn [map total]; lra).
  pose proof (derivable_pt_lim_comp _ sqrt 0 _ (/ (2 * sqrt 1)) Q) as K. cbn beta iota delta [map] in K. rewrite S1 in K. specialize (K (derivable_pt_lim_sqrt 1 Rlt_0_1)).
  unfold comp in K. replace (/ (2 * sqrt 1) * (2 * (0 * 1 + (1 * 0 + 0)))) with 0 in K by (rewrite sqrt_1; lra). exact K.
Qed.
