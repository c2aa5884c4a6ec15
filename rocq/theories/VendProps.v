(* Properties C267-C274: the vendored photometric data. *)
From Coq Require Import Reals String Lra.
From Verif Require Import Base ListLemmas PhotModel PhotGrey VendModel VendSpec VendProofs.
Open Scope string_scope.
Open Scope list_scope.
Open Scope R_scope.

(* ---- C267 ---- *)
Theorem C267_curve : forall f pts out, sorts f -> normalize_curve f pts = Ok out ->
  rising out /\ (2 <= List.length out)%nat /\ (forall w, In w (map fst out) <-> In (Some w) (map fst pts))
  /\ (forall q, In q out -> 0 <= snd q <= 1) /\ exists q, In q out /\ snd q = 1.
Proof.
  intros f pts out Sf H. destruct (normalize_ok f pts out Sf H) as [l [-> [L [S ->]]]]. destruct (Sf l) as [P T].
  set (u := kept (f l)) in *. split; [|split; [|split; [|split]]].
  - assert (R : rising u) by (apply kept_rising; exact T). clear - R. unfold rising in *.
    generalize (scale u). intros k. clearbody u. induction R as [|p m R IH F]; cbn; constructor; [exact IH|].
    apply Forall_forall. intros q Hq. apply in_map_iff in Hq as [v [<- Hv]]. cbn. rewrite Forall_forall in F. apply F. exact Hv.
  - rewrite map_length. exact L.
  - intros w. rewrite map_map. cbn [fst]. change (map (fun x : R * R => fst x) u) with (map fst u). unfold u. rewrite kept_wl by exact T.
    unfold given. rewrite map_map. cbn [fst]. split; intros I.
    + apply in_map_iff in I as [q [<- I]]. apply in_map_iff. exists q. split; [reflexivity|]. eapply Permutation_in; [symmetry; exact P|exact I].
    + apply in_map_iff in I as [q [[= <-] I]]. apply in_map. eapply Permutation_in; [exact P|exact I].
  - intros q Hq. apply in_map_iff in Hq as [v [<- Hv]]. cbn [snd]. pose proof (clip01_range (snd v)) as [C0 C1].
    assert (M : clip01 (snd v) <= scale u).
    { apply max_of_ge. apply in_map_iff. exists (fst v, clip01 (snd v)). split; [reflexivity|]. apply in_map_iff. exists v. split; [reflexivity|exact Hv]. }
    split; [apply Rmult_le_pos; [exact C0|left; apply Rinv_0_lt_compat; exact S]|].
    apply (Rmult_le_reg_r (scale u) _ _ S). unfold Rdiv. rewrite Rmult_assoc, Rinv_l by lra. lra.
  - assert (I : In (scale u) (map snd (clipped u))) by (apply max_of_in; destruct u; [cbn in L; lia|discriminate]).
    apply in_map_iff in I as [q [E I]]. apply in_map_iff in I as [r [<- I]]. cbn in E.
    exists (fst r, clip01 (snd r) / scale u). split; [apply in_map_iff; exists r; split; [reflexivity|exact I]|]. cbn. rewrite E. field. lra.
Qed.
Print Assumptions C267_curve.
(* a non-finite sample or an empty curve is refused, and among finite curves without repeated wavelengths exactly those with two samples
   and some throughput are accepted; a curve at one wavelength or without throughput is refused even with repeated wavelengths *)
Theorem C267_refused : forall f pts, sorts f ->
  ((exists p, In p pts /\ (fst p = None \/ snd p = None)) -> normalize_curve f pts = Err ValueError)
  /\ (pts = [] -> normalize_curve f pts = Err IndexError)
  /\ forall l, pts = given l ->
     (NoDup (map fst l) -> ((exists out, normalize_curve f pts = Ok out) <-> (2 <= List.length l)%nat /\ exists q, In q l /\ 0 < snd q))
     /\ (l <> [] -> (forall p q, In p l -> In q l -> fst p = fst q) \/ (forall q, In q l -> snd q <= 0) -> normalize_curve f pts = Err ValueError).
Proof.
  intros f pts Sf. split; [|split].
  - intros [p [Hp N]]. unfold normalize_curve. replace (finite pts) with (@None samples); [reflexivity|].
    symmetry. induction pts as [|[[w|] [t|]] pts IH]; [destruct Hp| |reflexivity..].
    destruct Hp as [<-|Hp]; [cbn in N; destruct N; discriminate|]. cbn. rewrite (IH Hp). reflexivity.
  - intros ->. cbn. destruct (Sf []) as [P _]. apply Permutation_nil in P. rewrite P. reflexivity.
  - intros l ->. destruct (Sf l) as [P T]. split.
    + intros N. destruct (sorts_nodup f l Sf N) as [R K]. split.
      * intros [out H]. destruct (normalize_ok f _ out Sf H) as [m [E [L [S _]]]].
        assert (E' : l = m). { apply (f_equal finite) in E. rewrite !finite_given in E. congruence. } subst m.
        rewrite K in L, S. rewrite <- (Permutation_length P) in L. split; [exact L|]. apply scale_pos in S as [q [Hq S]].
        exists q. split; [eapply Permutation_in; [symmetry; exact P|exact Hq]|exact S].
      * intros [L [q [Hq S]]]. eexists. apply normalize_eq; rewrite K; [rewrite <- (Permutation_length P); exact L|].
        apply scale_pos. exists q. split; [eapply Permutation_in; [exact P|exact Hq]|exact S].
    + intros NE C. apply normalize_err.
      * intros Z. rewrite Z in P. symmetry in P. apply Permutation_nil in P. contradiction.
      * intros [L S]. destruct C as [C|C].
        -- pose proof (kept_rising (f l) T) as R. pose proof (kept_incl (f l)) as I. destruct (kept (f l)) as [|a [|b u]]; cbn in L; try lia.
           inversion R as [|? ? _ F]; subst. inversion F as [|? ? F1 _]; subst.
           assert (E : fst a = fst b).
           { apply C; (eapply Permutation_in; [symmetry; exact P|apply I; cbn; auto]). }
           lra.
        -- apply scale_pos in S as [q [Hq S]]. apply kept_incl in Hq. specialize (C q (Permutation_in _ (Permutation_sym P) Hq)). lra.
Qed.
Print Assumptions C267_refused.
(* three samples out of order *)
Example C267_case : exists out, normalize_curve (sort by_wl) (given [(600, 1 / 4); (400, 0); (500, 1 / 2)]) = Ok out.
Proof.
  destruct (C267_refused (sort by_wl) (given [(600, 1 / 4); (400, 0); (500, 1 / 2)]) sorts_by_wl) as [_ [_ H]].
  destruct (H [(600, 1 / 4); (400, 0); (500, 1 / 2)] eq_refl) as [H1 _]. apply H1.
  - cbn. repeat constructor; cbn; intuition lra.
  - split; [cbn; lia|]. exists (500, 1 / 2). cbn. split; [auto|lra].
Qed.

(* ---- C268 ---- *)
(* a curve in percent: one sample is twice the other, and after normalisation they are equal *)
Theorem C268_refuted : exists l out, NoDup (map fst l) /\ normalize_curve (sort by_wl) (given l) = Ok out
  /\ In (400, 50) l /\ In (500, 100) l /\ In (400, 1) out /\ In (500, 1) out.
Proof.
  exists [(400, 50); (500, 100)]. 
  assert (C : clip01 50 = 1 /\ clip01 100 = 1).
  { unfold clip01. rewrite !Rmax_left by lra. rewrite !Rmin_right by lra. auto. }
  assert (E : sort by_wl [(400, 50); (500, 100)] = [(400, 50); (500, 100)]).
  { cbn. unfold by_wl. cbn. destruct (Rle_dec 400 500); [reflexivity|lra]. }
  assert (K : kept (sort by_wl [(400, 50); (500, 100)]) = [(400, 50); (500, 100)]).
  { rewrite E. cbn. destruct (Rlt_dec 0 (500 - 400)); [reflexivity|lra]. }
  assert (S : scale [(400, 50); (500, 100)] = 1).
  { unfold scale, max_of. cbn. destruct C as [-> ->]. unfold Rmax. repeat destruct (Rle_dec _ _); lra. }
  eexists. split; [cbn; repeat constructor; cbn; intuition lra|]. split; [apply normalize_eq; rewrite K; [cbn; lia|rewrite S; lra]|].
  rewrite K, S. cbn. destruct C as [-> ->]. split; [left; reflexivity|]. split; [right; left; reflexivity|].
  split; [left|right; left]; f_equal; field.
Qed.
Print Assumptions C268_refuted.
(* with throughputs between 0 and 1 the curve is multiplied by one number, at least 1 *)
Theorem C268_partial : forall f l out, sorts f -> (forall q, In q l -> 0 <= snd q <= 1) -> normalize_curve f (given l) = Ok out ->
  exists k, 1 <= k /\ forall q, In q out -> exists p, In p l /\ fst q = fst p /\ snd q = k * snd p.
Proof.
  intros f l out Sf B H. destruct (normalize_ok f _ out Sf H) as [m [E [L [S ->]]]].
  assert (E' : l = m) by (apply (f_equal finite) in E; rewrite !finite_given in E; congruence). subst m.
  destruct (Sf l) as [P _]. set (u := kept (f l)) in *. exists (/ scale u). split.
  - rewrite <- Rinv_1. apply Rinv_le_contravar; [exact S|].
    assert (I : In (scale u) (map snd (clipped u))) by (apply max_of_in; destruct u; [cbn in L; lia|discriminate]).
    apply in_map_iff in I as [q [<- I]]. apply in_map_iff in I as [r [<- I]]. apply clip01_range.
  - intros q Hq. apply in_map_iff in Hq as [p [<- Hp]]. apply kept_incl in Hp. apply (Permutation_in _ (Permutation_sym P)) in Hp.
    exists p. split; [exact Hp|]. split; [reflexivity|]. cbn. rewrite clip01_id by (apply B; exact Hp). unfold Rdiv. ring.
Qed.
Print Assumptions C268_partial.
Example C268_case : exists out, normalize_curve (sort by_wl) (given [(600, 1 / 4); (400, 0); (500, 1 / 2)]) = Ok out
  /\ forall q, In q [(600, 1 / 4); (400, 0); (500, 1 / 2)] -> 0 <= snd q <= 1.
Proof.
  destruct C267_case as [out H]. exists out. split; [exact H|]. intros q Hq. cbn in Hq. destruct Hq as [<-|[<-|[<-|[]]]]; cbn; lra.
Qed.

(* ---- C269 ---- *)
(* two samples at 400 nm: which of them counts depends on their order *)
Theorem C269_refuted : exists l m out out', Permutation l m /\ normalize_curve (sort by_wl) (given l) = Ok out
  /\ normalize_curve (sort by_wl) (given m) = Ok out' /\ out <> out'.
Proof.
  exists [(400, 1 / 2); (400, 1); (500, 1)], [(400, 1); (400, 1 / 2); (500, 1)].
  assert (C : clip01 (1 / 2) = 1 / 2 /\ clip01 1 = 1) by (split; apply clip01_id; lra).
  assert (D : forall a b, kept (sort by_wl [(400, a); (400, b); (500, 1)]) = [(400, a); (500, 1)]).
  { intros a b. cbn. unfold by_wl. cbn. destruct (Rle_dec 400 500); [|lra]. cbn. destruct (Rle_dec 400 400); [|lra]. cbn.
    destruct (Rlt_dec 0 (400 - 400)); [lra|]. destruct (Rlt_dec 0 (500 - 400)); [reflexivity|lra]. }
  assert (S : forall a, 0 <= a <= 1 -> scale [(400, a); (500, 1)] = 1).
  { intros a A. unfold scale, max_of. cbn. rewrite (clip01_id a A). destruct C as [_ ->]. rewrite (Rmax_left 1 a) by lra. apply Rmax_right. lra. }
  eexists. eexists. split; [apply perm_swap|].
  split; [apply normalize_eq; rewrite D; [cbn; lia|rewrite S; lra]|]. split; [apply normalize_eq; rewrite D; [cbn; lia|rewrite S; lra]|].
  rewrite !D, !S by lra. cbn. destruct C as [-> ->]. intros H. injection H as H. lra.
Qed.
Print Assumptions C269_refuted.
(* without repeated wavelengths neither the order of the samples nor the sorting algorithm matters *)
Theorem C269_partial : forall f g l m, sorts f -> sorts g -> Permutation l m -> NoDup (map fst l) ->
  normalize_curve f (given l) = normalize_curve g (given m).
Proof.
  intros f g l m Sf Sg P N. assert (N' : NoDup (map fst m)) by (eapply Permutation_NoDup; [apply Permutation_map; exact P|exact N]).
  destruct (sorts_nodup f l Sf N) as [R1 _]. destruct (sorts_nodup g m Sg N') as [R2 _].
  assert (E : f l = g m).
  { apply rising_unique; [assumption|assumption|]. destruct (Sf l) as [P1 _]. destruct (Sg m) as [P2 _]. rewrite <- P1, <- P2. exact P. }
  unfold normalize_curve. rewrite !finite_given, E. reflexivity.
Qed.
Print Assumptions C269_partial.
Example C269_case : sorts (sort by_wl) /\ NoDup (map fst [(600, 1 / 4); (400, 0); (500, 1 / 2)])
  /\ Permutation [(600, 1 / 4); (400, 0); (500, 1 / 2)] [(400, 0); (600, 1 / 4); (500, 1 / 2)].
Proof. split; [exact sorts_by_wl|]. split; [cbn; repeat constructor; cbn; intuition lra|apply perm_swap]. Qed.

(* ---- C272 ---- *)
(* the four templates exist on the same wavelengths, 300 to 1100 nm, are positive there and 1 at 550 nm *)
Theorem C272_templates : exists ts, build_templates = Ok ts /\ map t_id ts = ["C"; "S"; "NEO"; "MBA"]
  /\ (forall t, In t ts -> rising (t_pts t) /\ List.length (t_pts t) = Z.to_nat 4000 /\ (exists v, In (300, v) (t_pts t)) /\ (exists v, In (1100, v) (t_pts t))
        /\ (forall q, In q (t_pts t) -> 300 <= fst q <= 1100 /\ 0 < snd q) /\ interp (t_pts t) 550 = 1 /\ t_c t + t_s t = 1)
  /\ forall t u, In t ts -> In u ts -> map fst (t_pts t) = map fst (t_pts u).
Proof.
  destruct (template_ok c_type c_type_pos) as [c [C1 [C2 [C3 [C4 [C5 _]]]]]].
  destruct (template_ok s_type s_type_pos) as [s [S1 [S2 [S3 [S4 [S5 _]]]]]].
  unfold build_templates. rewrite C1. cbn [bind]. rewrite S1. cbn [bind]. eexists. split; [reflexivity|]. split; [reflexivity|].
  assert (M : map fst c = map fst s) by congruence. destruct grid_ends as [G1 [G2 G3]].
  assert (GR : forall w, In w template_grid -> 300 <= w <= 1100) by (intros w; apply linspace_range; [lra|lia]).
  assert (Main : forall t, map fst t = template_grid -> rising t /\ List.length t = Z.to_nat 4000 /\ (exists v, In (300, v) t) /\ (exists v, In (1100, v) t) /\ forall q, In q t -> 300 <= fst q <= 1100).
  { intros t E. split; [|split; [|split; [|split]]].
    - assert (X : rising (map (fun w => (w, 0)) template_grid)) by (apply linspace_rising; [lra|lia]).
      rewrite <- E in X. clear - X. unfold rising in *. induction t as [|p t IH]; [constructor|]. inversion X as [|? ? X1 X2]; subst.
      constructor; [apply IH; exact X1|]. apply Forall_forall. intros q Hq. rewrite Forall_forall in X2.
      apply (X2 (fst q, 0)). apply in_map_iff. exists (fst q). split; [reflexivity|apply in_map; exact Hq].
    - rewrite <- G3, <- E. symmetry. apply map_length.
    - rewrite <- E in G1. apply in_map_iff in G1 as [[w v] [W I]]. cbn in W. subst w. exists v. exact I.
    - rewrite <- E in G2. apply in_map_iff in G2 as [[w v] [W I]]. cbn in W. subst w. exists v. exact I.
    - intros q Hq. apply GR. rewrite <- E. apply in_map. exact Hq. }
  assert (Mx : forall a b, 0 < a -> 0 < b -> Forall (fun q => 0 < snd q) (mix a b c s)).
  { intros a b A B. apply Forall_forall. intros q Hq. apply in_map_iff in Hq as [[p r] [<- Hq]]. cbn.
    rewrite Forall_forall in C4, S4. pose proof (C4 p (in_combine_l _ _ _ _ Hq)). pose proof (S4 r (in_combine_r _ _ _ _ Hq)). nra. }
  assert (All : forall t a b, map fst t = template_grid -> Forall (fun q => 0 < snd q) t -> interp t 550 = 1 -> a + b = 1 ->
    rising t /\ List.length t = Z.to_nat 4000 /\ (exists v, In (300, v) t) /\ (exists v, In (1100, v) t)
        /\ (forall q, In q t -> 300 <= fst q <= 1100 /\ 0 < snd q) /\ interp t 550 = 1 /\ a + b = 1).
  { intros t a b E F I AB. destruct (Main t E) as [A1 [A2 [A3 [A4 A5]]]]. rewrite Forall_forall in F. repeat split; try assumption; try (apply A5; assumption). apply F. assumption. }
  split.
  - intros t [<-|[<-|[<-|[<-|[]]]]]; cbn [t_pts t_c t_s]; apply All; try assumption; try (rewrite mix_wl by exact M; exact C2); try (apply Mx; lra);
      try (rewrite interp_mix by exact M; rewrite C5, S5); lra.
  - assert (W : forall t, In t [mk_trow "C" c 1 0; mk_trow "S" s 0 1; mk_trow "NEO" (mix (5 / 10) (5 / 10) c s) (5 / 10) (5 / 10); mk_trow "MBA" (mix (7 / 10) (3 / 10) c s) (7 / 10) (3 / 10)] -> map fst (t_pts t) = template_grid).
    { intros t [<-|[<-|[<-|[<-|[]]]]]; cbn [t_pts]; try assumption; rewrite mix_wl by exact M; exact C2. }
    intros t u Ht Hu. rewrite (W t Ht), (W u Hu). reflexivity.
Qed.
Print Assumptions C272_templates.
(* a template with a value at every wavelength that is not normalised is not 1 at 550 nm *)
Example C272_case : c_type 550 <> 1.
Proof.
  unfold c_type. destruct (Rlt_dec 550 450); [lra|]. pose proof (exp_pos (- (1 / 2) * ((550 - 700) / 50) ^ 2)). intros E.
  replace ((550 - 550) / 550) with 0 in E by field. lra.
Qed.

(* ---- C270 ---- *)
Lemma table_mix : forall f solar ts curves rows, build_templates = Ok ts -> build_integrals f solar ts curves = Ok rows ->
  forall b, value_of rows "NEO" b = omap2 (fun x y => 5 / 10 * x + 5 / 10 * y) (value_of rows "C" b) (value_of rows "S" b)
         /\ value_of rows "MBA" b = omap2 (fun x y => 7 / 10 * x + 3 / 10 * y) (value_of rows "C" b) (value_of rows "S" b).
Proof.
  intros f solar ts curves rows T I b. unfold build_integrals in I. apply mapM_rows in I. subst rows.
  unfold build_templates in T.
  destruct (template_ok c_type c_type_pos) as [c [C1 [C2 _]]]. destruct (template_ok s_type s_type_pos) as [s [S1 [S2 _]]].
  rewrite C1 in T. cbn [bind] in T. rewrite S1 in T. cbn [bind] in T. injection T as <-.
  rewrite !value_of_rows. cbn [find t_id t_pts String.eqb Ascii.eqb Bool.eqb].
  destruct (find _ curves) as [r|]; [|split; reflexivity]. cbn [t_pts].
  split; apply vendor_mix; congruence.
Qed.
(* for any solar spectrum, filters and weights in the proportion of the mix: asking for the named mix or for its weights gives the same *)
Theorem C270_mixes : forall f solar ts curves rows, build_templates = Ok ts -> build_integrals f solar ts curves = Ok rows ->
  (forall r, In r rows -> i_value r <> None) ->
  forall sun tab st wc ws fs, 0 < wc -> 0 < ws -> assoc String.eqb "C" (templates st) = None -> assoc String.eqb "S" (templates st) = None ->
  (wc = ws -> assoc String.eqb "NEO" (templates st) = None ->
     compute_mix_integrals sun tab (value_of rows) st wc ws fs = get_integrals sun tab (value_of rows) st "NEO" fs)
  /\ (3 * wc = 7 * ws -> assoc String.eqb "MBA" (templates st) = None ->
     compute_mix_integrals sun tab (value_of rows) st wc ws fs = get_integrals sun tab (value_of rows) st "MBA" fs).
Proof.
  intros f solar ts curves rows T I _ sun tab st wc ws fs W1 W2 NC NS.
  assert (G : forall D a b, wc / (wc + ws) = a -> ws / (wc + ws) = b -> assoc String.eqb D (templates st) = None ->
    (forall x, value_of rows D x = omap2 (fun x y => a * x + b * y) (value_of rows "C" x) (value_of rows "S" x)) ->
    compute_mix_integrals sun tab (value_of rows) st wc ws fs = get_integrals sun tab (value_of rows) st D fs).
  { intros D a b A B ND M. unfold compute_mix_integrals. destruct (Rlt_dec wc 0); [lra|]. destruct (Rlt_dec ws 0); [lra|]. destruct (Rle_dec (wc + ws) 0); [lra|].
    rewrite A, B. unfold get_integrals. rewrite NC, NS, ND. destruct fs as [|g gs]; [reflexivity|].
    assert (H : get_precomputed sun tab (value_of rows) D (g :: gs)
      = bind (get_precomputed sun tab (value_of rows) "C" (g :: gs)) (fun ic => bind (get_precomputed sun tab (value_of rows) "S" (g :: gs)) (fun is =>
        Ok (map (fun p => omap2 (fun x y => a * x + b * y) (fst p) (snd p)) (combine ic is))))).
    { unfold get_precomputed. apply (mix_results (value_of rows "C") (value_of rows "S") (value_of rows D) a b (norm_of sun tab) (g :: gs) M).
      intros x e. unfold norm_of. destruct (forallb _ _); [|congruence]. destruct (curve_of _ _); [|congruence]. destruct (solar_norm _ _); congruence. }
    rewrite H. destruct (get_precomputed sun tab (value_of rows) "C" (g :: gs)) as [ic|e]; cbn [bind]; [|reflexivity].
    destruct (get_precomputed sun tab (value_of rows) "S" (g :: gs)) as [is|e]; reflexivity. }
  split; intros E N.
  - apply (G "NEO" (5 / 10) (5 / 10)); [subst; field; lra|subst; field; lra|exact N|]. intros x. apply (table_mix f solar ts curves rows T I x).
  - assert (X : wc = 7 / 3 * ws) by lra.
    apply (G "MBA" (7 / 10) (3 / 10)); [subst; field; lra|subst; field; lra|exact N|]. intros x. apply (table_mix f solar ts curves rows T I x).
Qed.
Print Assumptions C270_mixes.
(* the values in the table *)
Theorem C270_rows : forall f solar ts curves rows, build_templates = Ok ts -> build_integrals f solar ts curves = Ok rows ->
  forall b, value_of rows "NEO" b = omap2 (fun x y => (x + y) / 2) (value_of rows "C" b) (value_of rows "S" b)
         /\ value_of rows "MBA" b = omap2 (fun x y => (7 * x + 3 * y) / 10) (value_of rows "C" b) (value_of rows "S" b).
Proof.
  intros f solar ts curves rows T I b. destruct (table_mix f solar ts curves rows T I b) as [-> ->].
  destruct (value_of rows "C" b), (value_of rows "S" b); cbn; split; try reflexivity; f_equal; field.
Qed.
Print Assumptions C270_rows.
(* a sun with three samples and one filter *)
Example C270_case : exists ts rows,
  build_templates = Ok ts /\ build_integrals (sort by_wl) [(400, 1); (500, 2); (600, 1)] ts [mk_crow "V" "x" "v" [(450, 1); (650, 1)] "x"] = Ok rows
  /\ (forall r, In r rows -> i_value r <> None) /\ List.length rows = 4%nat.
Proof.
  destruct C272_templates as [ts [T [Ids [P _]]]]. exists ts.
  assert (NE : forall t, In t ts -> t_pts t <> []) by (intros t Ht; destruct (P t Ht) as [_ [_ [[v V] _]]]; intros Z; rewrite Z in V; exact V).
  assert (Sol : sorted_solar (sort by_wl) [(400, 1); (500, 2); (600, 1)] = [(400, 1); (500, 2); (600, 1)]).
  { unfold sorted_solar. cbn. destruct (Rlt_dec 400 500); [|lra]. destruct (Rlt_dec 500 600); [reflexivity|lra]. }
  assert (Lo : forall t, In t ts -> wl_min (t_pts t) <= 300).
  { intros t Ht. destruct (P t Ht) as [_ [_ [[v V] _]]]. unfold wl_min. generalize (fst (hd (0, 0) (t_pts t))). intros d. clear - V.
    induction (t_pts t) as [|p l IH]; [destruct V|]. cbn. destruct V as [->|V]; [apply Rmin_l|]. eapply Rle_trans; [apply Rmin_r|apply IH; exact V]. }
  assert (Hi : forall t, In t ts -> 1100 <= wl_max (t_pts t)).
  { intros t Ht. destruct (P t Ht) as [_ [_ [_ [[v V] _]]]]. unfold wl_max. generalize (fst (hd (0, 0) (t_pts t))). intros d. clear - V.
    induction (t_pts t) as [|p l IH]; [destruct V|]. cbn. destruct V as [->|V]; [apply Rmax_l|]. eapply Rle_trans; [apply IH; exact V|apply Rmax_r]. }
  assert (Row : forall t, In t ts -> exists v, integral_row [(400, 1); (500, 2); (600, 1)] t (mk_crow "V" "x" "v" [(450, 1); (650, 1)] "x") = Ok (mk_irow (t_id t) "V" (Some v))).
  { intros t Ht. unfold integral_row, vendor_integral. cbn [is_empty cr_pts cr_filter orb]. specialize (NE t Ht). destruct (t_pts t) as [|p l] eqn:E; [contradiction|]. cbn [is_empty orb]. rewrite <- E.
    specialize (Lo t Ht). specialize (Hi t Ht). match goal with |- context [Rle_dec ?h ?l] => destruct (Rle_dec h l) as [X|X] end; [|eexists; reflexivity].
    exfalso. revert X. apply Rlt_not_le. eapply (Rle_lt_trans _ 450); [apply Rmax_lub; [cbn; unfold Rmin; repeat destruct (Rle_dec _ _); lra|apply Rmax_lub; [lra|cbn; unfold Rmin; repeat destruct (Rle_dec _ _); lra]]|].
    eapply (Rlt_le_trans _ 600); [lra|]. apply Rmin_glb; [cbn; unfold Rmax; repeat destruct (Rle_dec _ _); lra|apply Rmin_glb; [lra|cbn; unfold Rmax; repeat destruct (Rle_dec _ _); lra]]. }
  assert (L : List.length ts = 4%nat) by (rewrite <- (map_length t_id), Ids; reflexivity). revert L.
  destruct ts as [|t1 [|t2 [|t3 [|t4 [|]]]]]; cbn [List.length]; intros L; try discriminate.
  unfold build_integrals. rewrite Sol. cbn [flat_map map app mapM fst snd].
  destruct (Row t1) as [v1 ->]; [cbn; auto|]. destruct (Row t2) as [v2 ->]; [cbn; auto|]. destruct (Row t3) as [v3 ->]; [cbn; auto|]. destruct (Row t4) as [v4 ->]; [cbn; auto|].
  cbn [bind]. eexists. split; [exact T|]. split; [reflexivity|]. split; [|reflexivity].
  intros r [<-|[<-|[<-|[<-|[]]]]]; discriminate.
Qed.

(* ---- C271 ---- *)
Lemma in_range : forall l w, covers l w -> wl_min l <= w <= wl_max l.
Proof.
  intros l w [[p [Hp Lp]] [q [Hq Lq]]]. unfold wl_min, wl_max. generalize (fst (hd (0, 0) l)). intros d. split.
  - eapply Rle_trans; [|exact Lp]. clear - Hp. induction l as [|a l IH]; [destruct Hp|]. cbn. destruct Hp as [->|H]; [apply Rmin_l|]. eapply Rle_trans; [apply Rmin_r|auto].
  - eapply Rle_trans; [exact Lq|]. clear - Hq. induction l as [|a l IH]; [destruct Hq|]. cbn. destruct Hq as [->|H]; [apply Rmax_l|]. eapply Rle_trans; [|apply Rmax_r]. auto.
Qed.
Lemma photon_sym : forall solar t c, (2 <= List.length (grid solar (Rmax (wl_min solar) (Rmax (wl_min t) (wl_min c))) (Rmin (wl_max solar) (Rmin (wl_max t) (wl_max c)))))%nat ->
  vendor_integral solar t c = integral_photon solar c t.
Proof.
  intros solar t c L. unfold vendor_integral, integral_photon. rewrite (Rmax_comm (wl_min c)), (Rmin_comm (wl_max c)).
  destruct (Rle_dec _ _); [reflexivity|]. destruct (Nat.ltb_spec (List.length (grid solar (Rmax (wl_min solar) (Rmax (wl_min t) (wl_min c))) (Rmin (wl_max solar) (Rmin (wl_max t) (wl_max c))))) 2); [lia|reflexivity].
Qed.
(* no solar sample inside the overlap: 0 in the table, NaN for the custom template *)
Theorem C271_refuted : exists solar t c rows, increasing solar = true /\ build_integrals (sort by_wl) solar [t] [c] = Ok rows
  /\ value_of rows (t_id t) (cr_filter c) = Some 0 /\ integral_photon solar (cr_pts c) (t_pts t) = None.
Proof.
  exists [(400, 1); (500, 1); (600, 1)], (mk_trow "C" [(410, 1); (450, 1)] 1 0), (mk_crow "V" "x" "v" [(410, 1); (450, 1)] "x").
  assert (Inc : increasing [(400, 1); (500, 1); (600, 1)] = true) by (cbn; destruct (Rlt_dec 400 500); [|lra]; destruct (Rlt_dec 500 600); [reflexivity|lra]).
  assert (Lo : Rmax (wl_min [(400, 1); (500, 1); (600, 1)]) (Rmax (wl_min [(410, 1); (450, 1)]) (wl_min [(410, 1); (450, 1)])) = 410).
  { cbn. unfold Rmax, Rmin. repeat destruct (Rle_dec _ _); lra. }
  assert (Hi : Rmin (wl_max [(400, 1); (500, 1); (600, 1)]) (Rmin (wl_max [(410, 1); (450, 1)]) (wl_max [(410, 1); (450, 1)])) = 450).
  { cbn. unfold Rmax, Rmin. repeat destruct (Rle_dec _ _); lra. }
  assert (G : grid [(400, 1); (500, 1); (600, 1)] 410 450 = []).
  { cbn. destruct (Rle_dec 410 400); [lra|]. destruct (Rle_dec 410 500); [|lra]. destruct (Rle_dec 500 450); [lra|]. destruct (Rle_dec 410 600); [|lra]. destruct (Rle_dec 600 450); [lra|reflexivity]. }
  eexists. split; [exact Inc|]. split.
  - unfold build_integrals, sorted_solar. rewrite Inc. cbn [List.length Nat.ltb Nat.leb negb orb flat_map map app mapM fst snd]. unfold integral_row. cbn [is_empty t_pts cr_pts orb bind]. reflexivity.
  - unfold value_of. cbn [find i_template i_filter t_id cr_filter String.eqb Ascii.eqb Bool.eqb andb i_value t_pts cr_pts].
    unfold vendor_integral, integral_photon. rewrite Lo, Hi, G. destruct (Rle_dec 450 410); [lra|]. split; reflexivity.
Qed.
Print Assumptions C271_refuted.
(* with two solar samples at wavelengths that template and filter cover, both ways give the same number *)
Theorem C271_partial : forall f solar ts curves rows, sorts f -> (2 <= List.length solar)%nat -> increasing solar = true -> build_integrals f solar ts curves = Ok rows ->
  forall t c, In t ts -> In c curves ->
  (exists p q, In p solar /\ In q solar /\ fst p < fst q /\ covers (t_pts t) (fst p) /\ covers (t_pts t) (fst q) /\ covers (cr_pts c) (fst p) /\ covers (cr_pts c) (fst q)) ->
  exists v, In (mk_irow (t_id t) (cr_filter c) (Some v)) rows /\ integral_photon solar (cr_pts c) (t_pts t) = Some v.
Proof.
  intros f solar ts curves rows Sf Len Inc I t c Ht Hc [p [q [Hp [Hq [L [T1 [T2 [C1 C2]]]]]]]].
  unfold build_integrals, sorted_solar in I. rewrite Inc in I. destruct (Nat.ltb_spec (List.length solar) 2); [lia|]. cbn [negb orb] in I. apply mapM_rows in I.
  apply in_range in T1, T2, C1, C2.
  assert (S1 : wl_min solar <= fst p <= wl_max solar) by (apply in_range; split; exists p; split; auto; lra).
  assert (S2 : wl_min solar <= fst q <= wl_max solar) by (apply in_range; split; exists q; split; auto; lra).
  set (lo := Rmax (wl_min solar) (Rmax (wl_min (t_pts t)) (wl_min (cr_pts c)))).
  set (hi := Rmin (wl_max solar) (Rmin (wl_max (t_pts t)) (wl_max (cr_pts c)))).
  assert (B : lo <= fst p /\ lo <= fst q /\ fst p <= hi /\ fst q <= hi).
  { unfold lo, hi. repeat split; try (apply Rmax_lub; [|apply Rmax_lub]); try (apply Rmin_glb; [|apply Rmin_glb]); lra. }
  assert (G : (2 <= List.length (grid solar lo hi))%nat).
  { assert (Gp : forall x, In x solar -> lo <= fst x -> fst x <= hi -> In x (grid solar lo hi)).
    { intros x Hx A1 A2. unfold grid. apply filter_In. split; [exact Hx|]. destruct (Rle_dec lo (fst x)); [|lra]. destruct (Rle_dec (fst x) hi); [reflexivity|lra]. }
    destruct B as [B1 [B2 [B3 B4]]].
    pose proof (Gp p Hp B1 B3) as X. pose proof (Gp q Hq B2 B4) as Y. destruct (grid solar lo hi) as [|a [|b g]]; [destruct X| |cbn; lia].
    destruct X as [<-|[]]. destruct Y as [<-|[]]. lra. }
  pose proof (photon_sym solar (t_pts t) (cr_pts c) G) as E. rewrite <- E.
  assert (V : exists v, vendor_integral solar (t_pts t) (cr_pts c) = Some v).
  { unfold vendor_integral. fold lo hi. destruct (Rle_dec hi lo); [lra|eexists; reflexivity]. }
  destruct V as [v V]. exists v. split; [|exact V]. subst rows. apply in_map_iff. exists (t, c). cbn [fst snd]. rewrite V. split; [reflexivity|].
  apply in_flat_map. exists t. split; [exact Ht|]. apply in_map_iff. exists c. auto.
Qed.
Print Assumptions C271_partial.
Example C271_case : exists p q, In p [(400, 1); (500, 2); (600, 1)] /\ In q [(400, 1); (500, 2); (600, 1)] /\ fst p < fst q
  /\ covers [(450, 1); (650, 1)] (fst p) /\ covers [(450, 1); (650, 1)] (fst q).
Proof.
  exists (500, 2), (600, 1). cbn [fst]. split; [cbn; auto|]. split; [cbn; auto|]. split; [lra|].
  split; (split; [exists (450, 1)|exists (650, 1)]; cbn; split; auto; lra).
Qed.

(* ---- C273 ---- *)
(* the table of curves has exactly the requested rows, each from its own data; it is refused exactly when something is wrong with the request or its data *)
Theorem C273_curves : forall fetch f specs, 
  (forall rows, build_bandpass_curves fetch f (Some specs) = Ok rows ->
     map spec_of rows = specs /\ NoDup (map cr_filter rows) /\ rows <> []
     /\ forall r, In r rows -> exists raw c, fetch (cr_svo r) = Ok raw /\ parse_svo_curve raw = Ok c /\ normalize_curve f c = Ok (cr_pts r))
  /\ ((exists rows, build_bandpass_curves fetch f (Some specs) = Ok rows) <->
      specs <> [] /\ NoDup (map spec_filter specs)
      /\ forall s, In s specs -> exists raw c pts, fetch (spec_svo s) = Ok raw /\ parse_svo_curve raw = Ok c /\ normalize_curve f c = Ok pts).
Proof.
  intros fetch f specs. unfold build_bandpass_curves. split.
  - intros rows H. destruct specs as [|s specs]; [discriminate|]. destruct (curve_loop_ok fetch f _ _ _ H) as [A [B [_ D]]].
    split; [exact A|]. split; [|split].
    + rewrite <- A, map_map in B. exact B.
    + intros ->. discriminate.
    + rewrite Forall_forall in D. exact D.
  - split.
    + intros [rows H]. destruct specs as [|s specs]; [discriminate|]. destruct (curve_loop_ok fetch f _ _ _ H) as [A [B [_ D]]].
      split; [discriminate|]. split; [exact B|]. intros t Ht. rewrite <- A in Ht. apply in_map_iff in Ht as [r [<- Hr]].
      rewrite Forall_forall in D. destruct (D r Hr) as [raw [c [X [Y Z]]]]. exists raw, c, (cr_pts r). auto.
    + intros [NE [N A]]. destruct specs as [|s specs]; [contradiction|]. apply curve_loop_total; [exact N| |exact A]. intros x _ [].
Qed.
Print Assumptions C273_curves.
(* without a request the 43 default filters are built, and they are distinct *)
Theorem C273_default : forall fetch f,
  build_bandpass_curves fetch f None = build_bandpass_curves fetch f (Some default_specs)
  /\ default_specs <> [] /\ NoDup (map spec_filter default_specs).
Proof.
  intros fetch f. split; [reflexivity|]. split; [discriminate|].
  assert (H : (fix nd (l : list string) := match l with [] => true | x :: r => negb (existsb (String.eqb x) r) && nd r end)%bool (map spec_filter default_specs) = true) by (vm_compute; reflexivity).
  revert H. generalize (map spec_filter default_specs). induction l as [|x r IH]; intros H; [constructor|].
  apply andb_prop in H as [H1 H2]. constructor; [|apply IH; exact H2]. intros Y. apply Bool.negb_true_iff in H1. apply Bool.not_true_iff_false in H1. apply H1.
  apply existsb_exists. exists x. split; [exact Y|apply String.eqb_refl].
Qed.
Print Assumptions C273_default.
(* one row for each pair, the templates in order and for each of them the filters in order *)
Theorem C273_integrals : forall f solar ts curves rows, build_integrals f solar ts curves = Ok rows ->
  map (fun r => (i_template r, i_filter r)) rows = list_prod (map t_id ts) (map cr_filter curves).
Proof.
  intros f solar ts curves rows H. unfold build_integrals in H. apply mapM_rows in H. subst rows. rewrite map_map. cbn [i_template i_filter].
  induction ts as [|t ts IH]; [reflexivity|]. cbn [flat_map map list_prod]. rewrite map_app, IH. f_equal. rewrite !map_map. reflexivity.
Qed.
Print Assumptions C273_integrals.
(* the wavelengths of a curve are those of the service, in nm instead of Angstrom *)
Theorem C273_units : forall fetch f specs rows, sorts f -> build_bandpass_curves fetch f (Some specs) = Ok rows ->
  forall r, In r rows -> exists raw wl, fetch (cr_svo r) = Ok raw /\ vt_wavelength raw = Some wl
    /\ forall w, In w (map fst (cr_pts r)) <-> In (Some (10 * w)) wl.
Proof.
  intros fetch f specs rows Sf H r Hr. destruct (C273_curves fetch f specs) as [A _]. destruct (A rows H) as [_ [_ [_ D]]].
  destruct (D r Hr) as [raw [c [F [P N]]]]. unfold parse_svo_curve in P.
  destruct (vt_wavelength raw) as [wl|] eqn:W; [|discriminate]. destruct (vt_transmission raw) as [tr|]; [|discriminate].
  destruct (Nat.eqb_spec (List.length wl) (List.length tr)) as [L|]; [|discriminate]. cbn [negb] in P. destruct (List.length wl <? 2)%nat; [discriminate|]. injection P as <-.
  exists raw, wl. split; [exact F|]. split; [exact W|]. intros w. destruct (C267_curve f _ _ Sf N) as [_ [_ [X _]]]. rewrite X. rewrite map_map. cbn [fst].
  rewrite <- (map_map fst (option_map (fun x => x / 10))).
  replace (map fst (combine wl tr)) with wl by (clear - L; revert tr L; induction wl as [|a wl IH]; intros [|b tr] L; try discriminate; [reflexivity|]; cbn; f_equal; apply IH; cbn in L; congruence).
  rewrite in_map_iff. split.
  - intros [[x|] [E I]]; [|discriminate]. injection E as E. replace (10 * w) with x by (subst w; field). exact I.
  - intros I. exists (Some (10 * w)). split; [cbn; f_equal; field|exact I].
Qed.
Print Assumptions C273_units.
(* two filters with the same two samples *)
Example C273_case : exists rows, build_bandpass_curves (fun _ => Ok (mk_votable (Some [Some 5000; Some 4000]) (Some [Some 1; Some 1]))) (sort by_wl)
    (Some [("a", "b", "c", "d"); ("e", "b", "y", "z")]) = Ok rows.
Proof.
  apply C273_curves. split; [discriminate|]. split; [cbn; repeat constructor; cbn; intuition discriminate|]. intros s _.
  destruct (C267_refused (sort by_wl) (given [(5000 / 10, 1); (4000 / 10, 1)]) sorts_by_wl) as [_ [_ H]].
  destruct (H [(5000 / 10, 1); (4000 / 10, 1)] eq_refl) as [H1 _].
  destruct H1 as [_ H1]; [cbn; repeat constructor; cbn; intuition lra|]. destruct H1 as [pts Hp].
  { split; [cbn; lia|]. exists (5000 / 10, 1). cbn. split; [auto|lra]. }
  eexists. eexists. exists pts. split; [reflexivity|]. split; [reflexivity|]. exact Hp.
Qed.

(* ---- C274 ---- *)
Theorem C274_map : forall code band f1 f2, In (code, band, f1) observatory_band_map -> In (code, band, f2) observatory_band_map ->
  f1 = f2.
Proof.
  assert (H : forallb (fun a => forallb (fun b => let '(c1, b1, g1) := a in let '(c2, b2, g2) := b in
     implb (String.eqb c1 c2 && String.eqb b1 b2) (String.eqb g1 g2)) observatory_band_map) observatory_band_map = true) by (vm_compute; reflexivity).
  intros code band f1 f2 A B. rewrite forallb_forall in H. specialize (H _ A). cbv beta in H. rewrite forallb_forall in H. specialize (H _ B). cbv beta iota in H.
  rewrite !String.eqb_refl in H. apply String.eqb_eq. exact H.
Qed.
Print Assumptions C274_map.
Theorem C274_keys : NoDup (map map_key observatory_band_map)
  /\ forall code band f, In (code, band, f) observatory_band_map -> exists s, In s default_specs /\ spec_filter s = f.
Proof.
  split.
  - assert (H : (fix nd (l : list string) := match l with [] => true | x :: r => negb (existsb (String.eqb x) r) && nd r end)%bool (map map_key observatory_band_map) = true) by (vm_compute; reflexivity).
    revert H. generalize (map map_key observatory_band_map). induction l as [|x r IH]; intros H; [constructor|].
    apply andb_prop in H as [H1 H2]. constructor; [|apply IH; exact H2]. intros Y. apply Bool.negb_true_iff in H1. apply Bool.not_true_iff_false in H1. apply H1.
    apply existsb_exists. exists x. split; [exact Y|apply String.eqb_refl].
  - assert (H : forallb (fun e => existsb (fun s => String.eqb (spec_filter s) (map_filter e)) default_specs) observatory_band_map = true) by (vm_compute; reflexivity).
    intros code band f I. rewrite forallb_forall in H. specialize (H _ I). apply existsb_exists in H as [s [Hs E]]. apply String.eqb_eq in E. exists s. auto.
Qed.
Print Assumptions C274_keys.
Example C274_case : In ("I41", "g", "ZTF_g") observatory_band_map /\ In ("W84", "y", "DECam_Y") observatory_band_map.
Proof. split; vm_compute; tauto. Qed.
