(* The statistics of a fit of the scipy differential corrector. *)
From Coq Require Import Reals Lra Lia ZArith String List Bool Sorted.
From Verif Require Import Base ListLemmas StrOrder SphModel FitModel FitProofs DcModel DcSpec DcProofs.
Import ListNotations.
Open Scope string_scope.
Open Scope list_scope.
Open Scope R_scope.

Fixpoint ztotal (l : list Z) : Z := match l with [] => 0%Z | x :: r => (x + ztotal r)%Z end.
(* nanoseconds of an epoch *)
Definition ns_of (t : Z * Z) : Z := (fst t * 86400000000000 + snd t)%Z.
(* C205: chi2 is the sum over the members that are not outliers, the reduced chi2 divides it by the sum of
   their degrees of freedom less six and is missing only when that is zero, and the arc is the time
   between the first and the last observation that is not ignored. *)
Theorem C205_statistics : forall {V P Rr} (predict : phys -> Z * Z -> string -> P) (resid : V -> P -> Rr) chi2 dof solve inv o obs ignore kw d ms,
  fit_least_squares predict resid chi2 dof solve inv [o] obs ignore kw = Ok (d, ms) ->
  let used := filter (fun m => negb (dm_outlier m)) ms in
  let k := (ztotal (map (fun m => dof (dm_resid m)) used) - 6)%Z in
  df_chi2 d = total (map (fun m => chi2 (dm_resid m)) used) /\
  (k <> 0%Z -> exists r, df_reduced d = Some r /\ r * IZR k = df_chi2 d) /\ (k = 0%Z -> df_reduced d = None) /\
  exists first last, In first obs /\ In last obs /\ ~ In (ob_id first) ignore /\ ~ In (ob_id last) ignore /\
    df_arc d = (ns_of (ob_time last) - ns_of (ob_time first))%Z /\
    forall b, In b obs -> ~ In (ob_id b) ignore -> (ns_of (ob_time first) <= ns_of (ob_time b) <= ns_of (ob_time last))%Z.
Proof.
  intros V P Rr predict resid chi2 dof solve inv o obs ig kw d ms F. cbv zeta. unfold fit_least_squares in F.
  destruct (solve _ _ _) as [sol|]; [|discriminate]. cbn [bind] in F. unfold evaluate_one in F. cbn [do_phys do_id] in F.
  destruct (filter (fun b => negb (ignored ig b)) obs) as [|u us] eqn:U; [discriminate|]. cbv zeta in F.
  cbn [bind fst snd df_orbit df_arc df_nobs df_chi2 df_reduced] in F. injection F as <- <-. cbn [df_chi2 df_reduced df_arc].
  set (rows := combine obs _).
  match goal with |- context [filter (fun m => negb (dm_outlier m)) ?l] =>
    assert (X : l = map (fun q => mkdm (do_id o) (ob_id (fst q)) (snd q) (ignored ig (fst q)) (Some (negb (ignored ig (fst q))))) rows)
      by (rewrite map_map; reflexivity); rewrite X; clear X end.
  assert (M : forall A (g : Rr -> A), map (fun m => g (dm_resid m)) (filter (fun m : dmember Rr => negb (dm_outlier m))
     (map (fun q => mkdm (do_id o) (ob_id (fst q)) (snd q) (ignored ig (fst q)) (Some (negb (ignored ig (fst q))))) rows)) =
     map g (map snd (filter (fun q => negb (ignored ig (fst q))) rows))).
  { intros A g. induction rows as [|q l IH]; [reflexivity|]. cbn [map filter dm_outlier]. destruct (negb _); cbn [map snd dm_resid]; rewrite IH; reflexivity. }
  rewrite (M R chi2), (M Z dof). set (inc := map snd (filter _ rows)).
  assert (Z1 : forall l, zsum l = ztotal l) by (induction l as [|x l IH]; [reflexivity|cbn; rewrite <- IH; reflexivity]).
  replace (zsum (map dof inc)) with (ztotal (map dof inc)) by (symmetry; apply Z1). split; [apply total_rsum|].
  split; [intros K; apply Z.eqb_neq in K; rewrite K; eexists; split; [reflexivity|]; apply Z.eqb_neq in K; field; apply not_0_IZR; exact K|].
  split; [intros K; apply Z.eqb_eq in K; rewrite K; reflexivity|].
  assert (IN : forall b, In b (u :: us) <-> In b obs /\ ~ In (ob_id b) ig).
  { intros b. rewrite <- U, filter_In, negb_true_iff. unfold ignored. rewrite <- not_true_iff_false, existsb_exists. split; intros [X Y]; split; auto; intros N; apply Y.
    - exists (ob_id b). rewrite String.eqb_refl. auto.
    - destruct N as (y & Y1 & Y2). apply String.eqb_eq in Y2. subst. exact Y1. }
  destruct (span_spec 0%Z u us) as (a & b & A & B & S & W). exists a, b. apply IN in A as [A1 A2]. apply IN in B as [B1 B2].
  split; [exact A1|]. split; [exact B1|]. split; [exact A2|]. split; [exact B2|]. split; [exact S|]. intros c C1 C2. apply W. apply IN. auto.
Qed.
Print Assumptions C205_statistics.
(* eight observations with one degree of freedom each, one of them ignored: seven less six *)
Example C205_statistics_case : exists d ms,
  fit_least_squares (fun _ _ _ => 0) Rminus (fun r => r * r) (fun _ => 1%Z) (fun _ x _ => Ok (mksol x [] 1%Z true 1%Z)) (fun _ => None)
    [mkdo "o" None (mkphys (mk6 0 0 0 0 0 0) 60000 "tdb" "SUN" "ecliptic") None]
    (map (fun k => mkobs (String (Ascii.ascii_of_nat (Z.to_nat k)) "") (60000 + k, 0)%Z "500" 1) [65; 66; 67; 68; 69; 70; 71; 72]%Z) ["H"] [] = Ok (d, ms) /\
  df_reduced d <> None /\ df_arc d = (6 * 86400000000000)%Z.
Proof. do 2 eexists. split; [reflexivity|]. split; [cbn; discriminate|reflexivity]. Qed.
