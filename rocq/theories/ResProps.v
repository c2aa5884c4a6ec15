(* C48-C50, C101, C102: residuals. *)
From Coq Require Import Reals String QArith Lra Lia.
From Flocq Require Import Core.
From Verif Require Import Base TimeRModel ResModel ResRModel ResSpec ResRSpec ResProofs FitRProofs ResRProofs.
Open Scope string_scope.
Open Scope Z_scope.
Open Scope list_scope.

(* C48: for longitudes in [0,360] the binary64 longitude residual is in [-180,180]; its size is the
   angle between the two directions up to the rounding of one subtraction (2^-45 degrees); it is
   not negative when the observed value is the larger one and not positive when it is the smaller. *)
Theorem C48_longitude : forall obs pred : R, is_f64 obs -> is_f64 pred ->
  (0 <= obs <= 360)%R -> (0 <= pred <= 360)%R ->
  ((-180 <= longitude_residual obs pred <= 180)%R /\
   exists d, is_separation obs pred d /\
     (Rabs (Rabs (longitude_residual obs pred) - d) <= bpow radix2 (-45))%R) /\
  ((pred <= obs)%R -> (0 <= longitude_residual obs pred)%R) /\
  ((obs <= pred)%R -> (longitude_residual obs pred <= 0)%R).
Proof.
  intros o p Fo Fp Ho Hp. split; [exact (longitude_bounded o p Fo Fp Ho Hp)|].
  exact (longitude_sign o p Fo Fp Ho Hp).
Qed.
Print Assumptions C48_longitude.
(* the two cases of the docstring *)
Example C48_case : is_f64 355 /\ is_f64 5 /\ longitude_residual 355 5 = 10%R /\ longitude_residual 5 355 = (-10)%R.
Proof.
  split; [apply (f64_int 355); cbn; lia|]. split; [apply (f64_int 5); cbn; lia|].
  split; [exact (longitude_int 355 5 ltac:(lia) ltac:(lia))|exact (longitude_int 5 355 ltac:(lia) ltac:(lia))].
Qed.

(* C101 refuted: the prediction plus the longitude residual is not the observed direction when the
   two lie on different sides of 0/360; predictions on opposite sides of the observation get the
   same residual. *)
Theorem C101_sign_refuted : exists obs pred pred' : R,
  is_f64 obs /\ is_f64 pred /\ is_f64 pred' /\
  (0 <= obs < 360)%R /\ (0 <= pred < 360)%R /\ (0 <= pred' < 360)%R /\
  ~ same_direction (pred + longitude_residual obs pred) obs /\
  same_direction (pred' + longitude_residual obs pred') obs /\
  longitude_residual obs pred = longitude_residual obs pred' /\
  ~ same_direction pred pred'.
Proof.
  exists 359%R, 1%R, 357%R.
  pose proof (longitude_int 359 1 ltac:(lia) ltac:(lia)) as E1. cbn in E1.
  pose proof (longitude_int 359 357 ltac:(lia) ltac:(lia)) as E2. cbn in E2.
  rewrite E1, E2.
  repeat (split; [solve [apply (f64_int 359); cbn; lia | apply (f64_int 1); cbn; lia | apply (f64_int 357); cbn; lia | lra]|]).
  split; [intros [k H]|split; [exists 0%Z; lra|split; [reflexivity|intros [k H]]]].
  - assert (E : (3 = 359 + 360 * k)%Z) by (apply eq_IZR; rewrite plus_IZR, mult_IZR; lra). lia.
  - assert (E : (1 = 357 + 360 * k)%Z) by (apply eq_IZR; rewrite plus_IZR, mult_IZR; lra). lia.
Qed.
Print Assumptions C101_sign_refuted.
(* it does hold, up to one rounding, when the difference does not exceed half a circle *)
Theorem C101_sign_partial : forall obs pred : R, is_f64 obs -> is_f64 pred ->
  (0 <= obs <= 360)%R -> (0 <= pred <= 360)%R -> (Rabs (obs - pred) <= 180)%R ->
  (Rabs (pred + longitude_residual obs pred - obs) <= bpow radix2 (-45))%R.
Proof.
  intros o p Fo Fp Ho Hp H. rewrite (longitude_near o p Fo Fp Ho Hp H).
  replace (p + fl (o - p) - o)%R with (fl (o - p) - (o - p))%R by lra. apply fl_diff_err. lra.
Qed.
Print Assumptions C101_sign_partial.
Example C101_case : is_f64 10 /\ is_f64 12 /\ (Rabs (10 - 12) <= 180)%R /\ longitude_residual 10 12 = (-2)%R.
Proof.
  split; [apply (f64_int 10); cbn; lia|]. split; [apply (f64_int 12); cbn; lia|].
  split; [apply Rabs_le; lra|exact (longitude_int 10 12 ltac:(lia) ltac:(lia))].
Qed.

(* a two-dimensional toy setting for the examples *)
Definition t_inv (m : list (list num)) : bool :=
  forallb (fun x => match x with Some q => negb (Qeq_bool q 0) | None => false end) (diagonal m).
Definition t_mah (r : list num) (m : list (list num)) : num :=
  nsum (zip_with (fun x s => match x, s with Some a, Some b => Some (Qred (a * a / b)) | _, _ => None end) r (diagonal m)).
Definition t_calc := calculate (fun o p => zip_with nsub o p) (fun _ m => m) t_inv t_mah (fun c _ => c).
Definition q (z : Z) : num := Some (z # 1)%Q.
Definition known (a b : num) (v : Z) : crow := mkcrow [a; b] [[q v; q 0]; [q 0; q v]].
Definition bare (a b : num) : crow := mkcrow [a; b] [[None; None]; [None; None]].
Definition table (os : list string) (rs : list crow) : coords := mkcoords "Cartesian" "ecliptic" os rs.
Definition obs3 := table ["SUN"; "SUN"; "SUN"] [known (q 5) (q 6) 2; known (q 1) None 3; known (q 0) (q 9) 1].
Definition pred1 := table ["SUN"] [bare (q 1) (q 2)].

(* C50: whenever Residuals.calculate returns, every row is what the two rows give by themselves *)
Theorem C50_rowwise : forall sph_residual sph_cov invertible mahalanobis tail,
  (forall v m, square (List.length v) m -> square (List.length v) (sph_cov v m)) ->
  forall D custom use_pred obs pred rs, shaped D obs -> shaped D pred ->
  calculate sph_residual sph_cov invertible mahalanobis tail custom use_pred obs pred = Ok rs ->
  List.length rs = List.length (rows obs) /\
  forall i o p c, nth_error (rows obs) i = Some o -> partner pred i p ->
    exists r, nth_error rs i = Some (Some r) /\
      calculate sph_residual sph_cov invertible mahalanobis tail custom use_pred (single obs c o) (single pred c p) = Ok [Some r].
Proof. intros. eapply rowwise_alone; eauto. Qed.
Print Assumptions C50_rowwise.
(* and what that is, spelled out for the classes that are not spherical *)
Theorem C50_row_values : forall sr sc inv mah tail,
  (forall v m, square (List.length v) m -> square (List.length v) (sc v m)) ->
  forall D custom up obs pred rs i o p, kind obs <> "Spherical" -> shaped D obs -> shaped D pred ->
  calculate sr sc inv mah tail custom up obs pred = Ok rs -> nth_error (rows obs) i = Some o -> partner pred i p ->
  exists r T, nth_error rs i = Some (Some r) /\
    (forall j a b, nth_error (values o) j = Some a -> nth_error (values p) j = Some b ->
       nth_error (r_values r) j = Some (match a, b with Some x, Some y => Some (x - y)%Q | _, _ => None end)) /\
    r_dof r = Z.of_nat (List.length (dims (values o))) /\
    combined up (cov o) (cov p) T /\ square D T /\
    (nothing_known (sub_matrix (dims (values o)) T) -> r_chi2 r = None /\ r_p r = None) /\
    (~ nothing_known (sub_matrix (dims (values o)) T) ->
       r_chi2 r = mah (at_dims (dims (values o)) (r_values r)) (zeroed (sub_matrix (dims (values o)) T)) /\
       r_p r = tail (r_chi2 r) (r_dof r)).
Proof. exact row_plain. Qed.
Print Assumptions C50_row_values.
Example C50_case : shaped 2 obs3 /\ shaped 2 pred1 /\
  option_map (map (option_map (fun r => (r_chi2 r, r_dof r))))
    (match t_calc false true obs3 pred1 with Ok l => Some l | Err _ => None end) =
  Some [Some (q 16, 2); Some (q 0, 1); Some (q 50, 2)].
Proof. split; [|split; [|vm_compute; reflexivity]]; split; [reflexivity| |reflexivity|]; repeat constructor. Qed.

(* C102 refuted: rows that can be handled one by one are rejected together, because a row without
   any covariance shares its pattern of missing values with a row that has one *)
Theorem C102_mixed_rows_refuted : exists obs pred,
  shaped 2 obs /\ shaped 2 pred /\ origins obs = origins pred /\
  (forall i o p c, nth_error (rows obs) i = Some o -> partner pred i p ->
     exists r, t_calc false true (single obs c o) (single pred c p) = Ok [Some r]) /\
  t_calc false true obs pred = Err ValueError.
Proof.
  exists (table ["SUN"; "SUN"] [known (q 5) (q 6) 2; bare (q 1) (q 2)]),
         (table ["SUN"; "SUN"] [bare (q 5) (q 6); bare (q 1) (q 2)]).
  split; [split; [reflexivity|repeat constructor]|].
  split; [split; [reflexivity|repeat constructor]|].
  split; [reflexivity|]. split; [|reflexivity].
  intros i o p c Ho [Hp|[_ Hp]]; [discriminate Hp|].
  destruct i as [|[|[|i]]]; cbn in Ho, Hp; try discriminate; injection Ho as <-; injection Hp as <-;
    unfold t_calc, calculate, single; cbn [kind frame origins rows]; unfold origins_differ; cbn [List.length Nat.eqb];
    unfold zip_with at 1; cbn [combine map fst snd]; rewrite (String.eqb_refl c); vm_compute; eexists; reflexivity.
Qed.
Print Assumptions C102_mixed_rows_refuted.
(* when the rows with the same missing values agree on whether any covariance is known, the table
   is handled whenever each of its rows is *)
Theorem C102_mixed_rows_partial : forall sr sc inv mah tail,
  (forall v m, square (List.length v) m -> square (List.length v) (sc v m)) ->
  forall D custom up obs pred, shaped D obs -> shaped D pred ->
  kind obs = kind pred -> frame obs = frame pred -> (custom = true \/ supported (kind obs) = true) ->
  origins obs = origins pred -> rows obs <> [] ->
  (forall i o p, nth_error (rows obs) i = Some o -> partner pred i p ->
     exists c r, calculate sr sc inv mah tail custom up (single obs c o) (single pred c p) = Ok [Some r]) ->
  (forall i j o p o' p', nth_error (rows obs) i = Some o -> partner pred i p ->
     nth_error (rows obs) j = Some o' -> partner pred j p' -> dims (values o) = dims (values o') ->
     nothing_known (sub_matrix (dims (values o)) (total_cov sc (kind obs) up o p)) ->
     nothing_known (sub_matrix (dims (values o')) (total_cov sc (kind obs) up o' p'))) ->
  exists rs, calculate sr sc inv mah tail custom up obs pred = Ok rs.
Proof.
  intros sr sc inv mah tail SH D custom up obs pred SO SP K F C O NE H1 H2.
  apply (calc_complete sr sc inv mah tail SH D); auto.
  split; [destruct C as [->|C]; auto; right; rewrite <- K; auto|]. split; [auto|]. split; [auto|]. split.
  - unfold origins_differ. rewrite <- O, Nat.eqb_refl. eexists. split; [reflexivity|].
    destruct SO as [LO _]. destruct (origins obs); [destruct (rows obs); [congruence|discriminate]|].
    cbn. rewrite String.eqb_refl. reflexivity.
  - right. destruct SO as [LO _], SP as [LP _]. congruence.
Qed.
Print Assumptions C102_mixed_rows_partial.
Example C102_case : is_ok (t_calc false true obs3 (table ["SUN"; "SUN"; "SUN"] [bare (q 1) (q 2); bare (q 1) (q 2); bare (q 1) (q 2)])) = true.
Proof. vm_compute. reflexivity. Qed.

(* C49 refuted: rows referred to different origins are subtracted from each other when any other
   row agrees, and empty tables are rejected as having different origins *)
Theorem C49_origins_refuted : exists obs pred rs, shaped 2 obs /\ shaped 2 pred /\
  nth_error (origins obs) 1 <> nth_error (origins pred) 1 /\
  t_calc false true obs pred = Ok rs.
Proof.
  eexists (table ["SUN"; "EARTH"] [known (q 5) (q 6) 2; known (q 1) (q 2) 2]),
          (table ["SUN"; "SUN"] [bare (q 5) (q 6); bare (q 1) (q 2)]), _.
  split; [split; [reflexivity|repeat constructor]|].
  split; [split; [reflexivity|repeat constructor]|].
  split; [discriminate|]. vm_compute. reflexivity.
Qed.
Print Assumptions C49_origins_refuted.
Theorem C49_empty_refuted : forall sr sc inv mah tail custom up k f, supported k = true ->
  calculate sr sc inv mah tail custom up (mkcoords k f [] []) (mkcoords k f [] []) = Err ValueError.
Proof. intros. apply origins_all_differ; auto. intros i c d Hc. destruct i; discriminate. Qed.
Print Assumptions C49_empty_refuted.
Theorem C49_origins_partial : forall sr sc inv mah tail custom up obs pred,
  List.length (origins obs) = List.length (origins pred) ->
  (forall rs, calculate sr sc inv mah tail custom up obs pred = Ok rs ->
     exists i c, nth_error (origins obs) i = Some c /\ nth_error (origins pred) i = Some c) /\
  (kind obs = kind pred -> supported (kind obs) = true ->
   (forall i c d, nth_error (origins obs) i = Some c -> nth_error (origins pred) i = Some d -> c <> d) ->
   calculate sr sc inv mah tail custom up obs pred = Err ValueError).
Proof.
  intros. split; [intros; eapply origins_checked; eauto|]. intros. apply origins_all_differ; auto.
Qed.
Print Assumptions C49_origins_partial.
Example C49_case : t_calc false true (table ["SUN"; "EARTH"] [known (q 5) (q 6) 2; known (q 1) (q 2) 2])
  (table ["EARTH"; "SUN"] [bare (q 5) (q 6); bare (q 1) (q 2)]) = Err ValueError.
Proof. reflexivity. Qed.
