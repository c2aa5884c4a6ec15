(* Proofs for AdesModel: observations. *)
From Coq Require Import Ascii String QArith Qround Lqa Lia ZArith Permutation Sorted.
From Verif Require Import Base ListLemmas TimeModel TimeSpec TimeQProofs MpcModel MpcSpec MpcProofs ObsModel ObsSpec ObsProofs AdesModel AdesSpec AdesProofs.
Open Scope string_scope.
Open Scope Z_scope.
Open Scope list_scope.

(* ---- columns ---- *)
Lemma str_eqb_refl : forall s, str_eqb s s = true.
Proof. intros s. apply str_eqb_eq. reflexivity. Qed.
Lemma pick_In : forall A (mask : list bool) (l : list A) x, In x (pick mask l) -> In x l.
Proof. intros A mask. induction mask as [|b m IH]; intros [|y l] x H; try destruct H. cbn in H. destruct b; [destruct H as [->|H]; cbn; auto|cbn; auto]. Qed.
Lemma pick_map : forall A B (f : A -> B) mask l, pick mask (map f l) = map f (pick mask l).
Proof. intros A B f mask. induction mask as [|b m IH]; intros [|y l]; auto. cbn. destruct b; cbn; rewrite IH; reflexivity. Qed.
Lemma dget_In : forall V (d : list (str * V)) k v, dget str_eqb k d = Some v -> In (k, v) d.
Proof. intros V d k v. induction d as [|[k' v'] d IH]; cbn; [discriminate|]. destruct (str_eqb k k') eqn:E; [apply str_eqb_eq in E; subst; intros X; injection X as <-; auto|auto]. Qed.
Lemma lookup_pick : forall (names ts : list str) mask j n t b, NoDup names ->
  nth_error names j = Some n -> nth_error ts j = Some t -> nth_error mask j = Some b ->
  memb str_eqb n (pick mask names) = b /\ (b = true -> dget str_eqb n (combine (pick mask names) (pick mask ts)) = Some t).
Proof.
  induction names as [|n0 names IH]; intros ts mask j n t b ND Hn Ht Hb; [destruct j; discriminate|].
  destruct ts as [|t0 ts]; [destruct j; discriminate|]. destruct mask as [|b0 mask]; [destruct j; discriminate|]. inversion ND; subst.
  destruct j as [|j].
  - cbn in Hn, Ht, Hb. injection Hn as ->. injection Ht as ->. injection Hb as ->. cbn [pick]. destruct b.
    + cbn [memb existsb combine dget]. rewrite str_eqb_refl. auto.
    + split; [|discriminate]. destruct (memb str_eqb n (pick mask names)) eqn:M; auto. exfalso. apply H1. apply pick_In with mask. apply (memb_In str_eqb str_eqb_eq). exact M.
  - cbn in Hn, Ht, Hb. destruct (IH ts mask j n t b H2 Hn Ht Hb) as [A B].
    assert (NE : str_eqb n n0 = false). { destruct (str_eqb n n0) eqn:E; auto. apply str_eqb_eq in E. subst n0. exfalso. apply H1. eapply nth_error_In; eauto. }
    cbn [pick]. destruct b0; [|auto]. cbn [combine dget]. rewrite NE. split; [|exact B]. unfold memb in *. cbn [existsb]. rewrite NE. exact A.
Qed.
Lemma mapM_pointwise : forall A B C (f : A -> result C) (g : B -> result C) l1 l2, List.length l1 = List.length l2 ->
  (forall j x y, nth_error l1 j = Some x -> nth_error l2 j = Some y -> f x = g y) -> mapM f l1 = mapM g l2.
Proof.
  intros A B C f g l1. induction l1 as [|x l1 IH]; intros [|y l2] L H; try discriminate; auto. cbn. rewrite (H 0%nat x y eq_refl eq_refl).
  rewrite (IH l2); [reflexivity|cbn in L; lia|]. intros j a b Ha Hb. exact (H (Datatypes.S j) a b Ha Hb).
Qed.
Lemma nodup_names : NoDup (map k_name schema).
Proof.
  assert (G : forall l, (fix d (l : list str) : bool := match l with [] => true | x :: r => negb (existsb (str_eqb x) r) && d r end) l = true -> NoDup l).
  { induction l as [|x l IH]; intros H; constructor; apply Bool.andb_true_iff in H; destruct H as [H1 H2]; auto.
    intros I. apply Bool.negb_true_iff in H1. assert (existsb (str_eqb x) l = true) by (apply existsb_exists; exists x; split; auto; apply str_eqb_refl). congruence. }
  apply G. vm_compute. reflexivity.
Qed.

(* ---- cells ---- *)
Section Cells.
Variables (show : row -> str) (read : str -> result row) (again : row -> row).
Hypothesis ST : stamps show read again.
Notation ctext := (cell_text show default_precision).

Definition okt (t : str) : Prop := trimmed t /\ Forall safe_char t /\ forall k, In k keywords -> ~ occurs k t.
Lemma numc_facts : forall c, numc c = true -> ~ white c /\ safe_char c /\ c <> "p"%char /\ c <> "t"%char /\ c <> "#"%char /\ c <> "!"%char.
Proof.
  intros c H. assert (G : forall c, implb (numc c) (negb (is_space c) && negb (existsb (Ascii.eqb c) ["|"; """"; "010"; "013"; "p"; "t"; "#"; "!"]%char)) = true).
  { match goal with |- forall c, @?P c = true => apply (ascii_all P) end. vm_compute. reflexivity. }
  specialize (G c). rewrite H in G. cbn [implb] in G. apply Bool.andb_true_iff in G. destruct G as [G1 G2]. apply Bool.negb_true_iff in G1, G2.
  assert (NI : ~ In c ["|"; """"; "010"; "013"; "p"; "t"; "#"; "!"]%char).
  { intros I. assert (X : existsb (Ascii.eqb c) ["|"; """"; "010"; "013"; "p"; "t"; "#"; "!"]%char = true) by (apply existsb_exists; exists c; split; auto; apply Ascii.eqb_refl). congruence. }
  split; [apply white_not; auto|]. split; [intros I; apply NI; cbn in I |- *; tauto|]. repeat split; intros ->; apply NI; cbn; tauto.
Qed.
Lemma okt_chars : forall t, Forall (fun c => ~ white c /\ safe_char c /\ c <> "p"%char /\ c <> "t"%char) t -> okt t.
Proof.
  intros t H. rewrite Forall_forall in H. split; [|split].
  - split; intros c r ->; apply H; [cbn; auto|apply in_or_app; cbn; auto].
  - apply Forall_forall. intros c Hc. apply H in Hc. tauto.
  - intros k K O. destruct (keyword_facts k K) as [_ [_ [X|X]]]; apply (occurs_In _ _ _ O) in X; apply H in X; intuition congruence.
Qed.
Lemma numc_okt : forall t, Forall (fun c => numc c = true) t -> okt t.
Proof. intros t H. apply okt_chars. eapply Forall_impl; [|exact H]. intros c Hc. apply numc_facts in Hc. tauto. Qed.
Lemma stamp_okt : forall t, okt (show t ++ s_ "Z").
Proof.
  intros t. apply okt_chars. destruct (ST t) as [F _]. apply Forall_app. split.
  - eapply Forall_impl; [|exact F]. intros c Hc.
    assert (G : forall c, implb (((48 <=? nat_of_ascii c) && (nat_of_ascii c <=? 57))%nat || existsb (Ascii.eqb c) ["-"; ":"; "T"; "."]%char)
      (negb (is_space c) && negb (existsb (Ascii.eqb c) ["|"; """"; "010"; "013"; "p"; "t"]%char)) = true).
    { match goal with |- forall c, @?P c = true => apply (ascii_all P) end. vm_compute. reflexivity. }
    specialize (G c). assert (X : ((48 <=? nat_of_ascii c) && (nat_of_ascii c <=? 57))%nat || existsb (Ascii.eqb c) ["-"; ":"; "T"; "."]%char = true).
    { apply Bool.orb_true_iff. destruct Hc as [Hc|Hc]; [left; unfold code in Hc; apply Bool.andb_true_iff; rewrite !Nat.leb_le; lia|right; apply existsb_exists; exists c; split; auto; apply Ascii.eqb_refl]. }
    rewrite X in G. cbn [implb] in G. apply Bool.andb_true_iff in G. destruct G as [G1 G2]. apply Bool.negb_true_iff in G1, G2.
    assert (NI : ~ In c ["|"; """"; "010"; "013"; "p"; "t"]%char).
    { intros I. assert (Y : existsb (Ascii.eqb c) ["|"; """"; "010"; "013"; "p"; "t"]%char = true) by (apply existsb_exists; exists c; split; auto; apply Ascii.eqb_refl). congruence. }
    split; [apply white_not; auto|]. split; [intros I; apply NI; cbn in I |- *; tauto|]. split; intros ->; apply NI; cbn; tauto.
  - constructor; [|constructor]. split; [apply white_not; reflexivity|]. split; [intros I; cbn in I; intuition discriminate|split; discriminate].
Qed.
Lemma okt_nil : okt [].
Proof. split; [apply trimmed_nil|]. split; [constructor|]. intros k K [a [b E]]. destruct (keyword_facts k K) as [N _]. destruct a; [destruct k; [congruence|discriminate]|discriminate]. Qed.
Lemma safe_okt : forall s, safe s -> okt s.
Proof. intros s [_ H]. exact H. Qed.
Lemma trimmed_blank : forall s, trimmed s -> s <> [] -> blank s = false.
Proof. intros s T N. unfold blank. rewrite strip_trimmed by auto. destruct s; [congruence|reflexivity]. Qed.

(* the value read for a cell of a column that is written ([b]) or dropped *)
Definition rd (k : column) (b : bool) (c : option cell) : result (option cell) := if b then read_cell read (k_kind k) (ctext k c) else Ok None.
Lemma rd_str : forall n t r b x, osafe x -> (b = false -> x = None) -> rd (mkcolumn n t KStr r) b (os x) = Ok (os x).
Proof.
  intros n t r b x S B. unfold rd. destruct b; [|rewrite B by auto; reflexivity]. destruct x as [x|]; [|reflexivity].
  destruct (S x eq_refl) as [N [T _]]. cbn [os option_map cell_text k_kind read_cell]. unfold read_cell. rewrite trimmed_blank by auto. rewrite strip_trimmed by auto. reflexivity.
Qed.
Lemma rd_text : forall n t r b x, osafe x -> (b = false -> x = None) -> rd (mkcolumn n t KText r) b (os x) = Ok (os x).
Proof.
  intros n t r b x S B. unfold rd. destruct b; [|rewrite B by auto; reflexivity]. destruct x as [x|]; [|reflexivity].
  destruct (S x eq_refl) as [N [T _]]. cbn [os option_map cell_text k_kind read_cell]. unfold read_cell. rewrite trimmed_blank by auto. reflexivity.
Qed.
Lemma rd_time : forall n t r x, rd (mkcolumn n t KTime r) true (Some (CT x)) = Ok (Some (CT (again x))).
Proof.
  intros n t r x. unfold rd. cbn [cell_text k_kind]. unfold read_cell. destruct (stamp_okt x) as [T _]. rewrite trimmed_blank by (auto; destruct (show x); discriminate).
  change (s_ "Z") with ["Z"%char]. rewrite removelast_last. destruct (ST x) as [_ ->]. reflexivity.
Qed.
Lemma rd_num : forall n t r p b x, dget str_eqb t default_precision = Some p -> ofinite x -> (x = None <-> b = false) ->
  exists y, rd (mkcolumn n t KNum r) b (on x) = Ok (on y) /\ onear (Z.of_nat p) x y.
Proof.
  intros n t r p b x P F B. unfold rd. destruct b.
  - destruct x as [v|]; [|destruct B as [B _]; discriminate (B eq_refl)]. destruct (F v eq_refl) as [q [-> R]].
    destruct (fixed_read p q R) as [y [E [Y [C N]]]]. exists (Some (FNum y)). cbn [on option_map cell_text k_kind k_table]. rewrite P. cbn [show_num]. unfold read_cell.
    rewrite trimmed_blank by (auto; apply numc_okt; auto). rewrite E. cbn [bind]. split; [reflexivity|]. exists q, y. auto.
  - exists None. destruct B as [_ B]. rewrite (B eq_refl). split; [reflexivity|exact I].
Qed.
Lemma rd_num0 : forall n t r b x, dget str_eqb t default_precision = None -> ofinite x -> (b = false -> x = None) ->
  exists y, rd (mkcolumn n t KNum r) b (on x) = Ok (on y) /\ onear 16 x y.
Proof.
  intros n t r b x P F B. unfold rd. destruct b.
  - destruct x as [v|].
    + destruct (F v eq_refl) as [q [-> R]]. destruct (fixed_read 16 q R) as [y [E [Y [C N]]]]. exists (Some (FNum y)). cbn [on option_map cell_text k_kind k_table]. rewrite P.
      cbn [show_num]. unfold read_cell. rewrite trimmed_blank by (auto; apply numc_okt; auto). rewrite E. cbn [bind]. split; [reflexivity|]. exists q, y. auto.
    + exists None. cbn [on option_map cell_text k_kind k_table]. rewrite P. split; [reflexivity|exact I].
  - exists None. rewrite (B eq_refl). split; [reflexivity|exact I].
Qed.
Lemma rms_range : forall x y, orms x -> onear 5 x y -> rms_ok y = true.
Proof.
  intros x y R N. destruct x as [x|], y as [y|]; cbn in N; try easy. destruct N as [q [r [-> [-> N]]]]. destruct (R _ eq_refl) as [q' [E H]]. injection E as <-.
  change (inject_Z (10 ^ 5)) with (100000 # 1)%Q in N. unfold rms_ok.
  assert (A : Qle_bool (1 # 10000000) r = true) by (apply Qle_bool_iff; lra). rewrite A. destruct (Qle_bool 100 r) eqn:B; auto. apply Qle_bool_iff in B. lra.
Qed.
Lemma orms_finite : forall x, orms x -> ofinite x.
Proof.
  intros x R v E. destruct (R v E) as [q [-> H]]. exists q. split; auto.
  assert (M : (99 <= inject_Z (10 ^ 300))%Q) by (change 99%Q with (inject_Z 99); rewrite <- Zle_Qle; vm_compute; discriminate). lra.
Qed.

Definition col (rows : list ades) (j : nat) : bool := existsb (fun a => negb (isna (nth j (cells a) None))) rows.
Lemma col_false : forall rows j a, In a rows -> col rows j = false -> isna (nth j (cells a) None) = true.
Proof.
  intros rows j a I H. destruct (isna (nth j (cells a) None)) eqn:E; auto. exfalso. assert (X : col rows j = true) by (apply existsb_exists; exists a; rewrite E; auto). congruence.
Qed.
Lemma col_true : forall rows j a, In a rows -> isna (nth j (cells a) None) = false -> col rows j = true.
Proof. intros rows j a I H. apply existsb_exists. exists a. rewrite H. auto. Qed.
Lemma col_some : forall rows j, col rows j = true -> exists a, In a rows /\ isna (nth j (cells a) None) = false.
Proof. intros rows j H. apply existsb_exists in H. destruct H as [a [I H]]. exists a. split; auto. apply Bool.negb_true_iff. auto. Qed.
Lemma isna_os : forall x, isna (os x) = true -> x = None.
Proof. intros [x|] H; [discriminate|auto]. Qed.
Lemma isna_on : forall x, ofinite x -> isna (on x) = true <-> x = None.
Proof. intros [x|] F; split; intros H; try discriminate; auto. destruct (F x eq_refl) as [q [-> _]]. discriminate. Qed.
Definition texts (a : ades) : list str := map (fun kc => ctext (fst kc) (snd kc)) (combine schema (cells a)).

Lemma read_mapM : forall mask a, List.length mask = 22%nat ->
  mapM (fun k => if memb str_eqb (k_name k) (pick mask (map k_name schema)) then
                   match dget str_eqb (k_name k) (combine (pick mask (map k_name schema)) (pick mask (texts a))) with Some x => read_cell read (k_kind k) x | None => Err RuntimeError end
                 else Ok None) schema =
  mapM (fun kbc => rd (fst kbc) (fst (snd kbc)) (snd (snd kbc))) (combine schema (combine mask (cells a))).
Proof.
  intros mask a L. apply mapM_pointwise.
  - rewrite !combine_length, L. reflexivity.
  - intros j k [k' [b c]] Hk Hc.
    assert (Hk' : nth_error schema j = Some k' /\ nth_error mask j = Some b /\ nth_error (cells a) j = Some c).
    { clear Hk. revert Hc. generalize schema, mask, (cells a). clear. induction j as [|j IH]; intros [|x l1] [|y l2] [|z l3] H; try discriminate; cbn in *.
      - injection H as -> -> ->. auto.
      - auto. }
    destruct Hk' as [E1 [E2 E3]]. rewrite Hk in E1. injection E1 as <-. cbn [fst snd].
    destruct (lookup_pick (map k_name schema) (texts a) mask j (k_name k) (ctext k c) b nodup_names) as [A B].
    + rewrite nth_error_map, Hk. reflexivity.
    + unfold texts. rewrite nth_error_map. assert (X : nth_error (combine schema (cells a)) j = Some (k, c)).
      { revert Hk E3. generalize schema, (cells a). clear. induction j as [|j IH]; intros [|x l1] [|y l2] H1 H2; try discriminate; cbn in *; [congruence|auto]. }
      rewrite X. reflexivity.
    + exact E2.
    + rewrite A. unfold rd. destruct b; [rewrite (B eq_refl)|]; reflexivity.
Qed.
Lemma read_row_ok : forall rows a, In a rows -> safe_row a -> (forall b, In b rows -> numbers_ok b) ->
  (forall f, In f [a_rmsra; a_rmsdec; a_corr; a_mag; a_rmsmag; a_snr; a_seeing; a_exp] -> forall b, In b rows -> (f a = None <-> f b = None)) ->
  exists a', read_row read (pick (present rows) (map k_name schema)) (pick (present rows) (texts a)) = Ok a' /\ reread again a a'.
Proof.
  intros rows a I S NU U. unfold read_row. rewrite read_mapM by reflexivity.
  destruct S as (S1 & S2 & S3 & S4 & S5 & S6 & S7 & S8 & S9 & S10).
  pose proof (NU a I) as (N1 & N2 & N3 & N4 & N5 & N6 & N7 & N8 & N9 & N10 & N11).
  assert (IDS : forall x, id_safe x -> osafe x) by (intros x H y E; destruct (H y E); auto).
  assert (STR : forall j n t r x, nth j (cells a) None = os x -> osafe x -> rd (mkcolumn n t KStr r) (col rows j) (os x) = Ok (os x)).
  { intros j n t r x E H. apply rd_str; auto. intros B. apply isna_os. rewrite <- E. eapply col_false; eauto. }
  assert (REQ : forall j n t r x, nth j (cells a) None = Some (CS x) -> safe x -> rd (mkcolumn n t KStr r) (col rows j) (Some (CS x)) = Ok (Some (CS x))).
  { intros j n t r x E H. change (Some (CS x)) with (os (Some x)). apply (STR j); [exact E|]. intros y Y. injection Y as <-. auto. }
  assert (NUM : forall j n t r p f, In f [a_rmsra; a_rmsdec; a_corr; a_mag; a_rmsmag; a_snr; a_seeing; a_exp] -> (forall b, nth j (cells b) None = on (f b)) ->
      (forall b, In b rows -> ofinite (f b)) -> dget str_eqb t default_precision = Some p ->
      exists y, rd (mkcolumn n t KNum r) (col rows j) (on (f a)) = Ok (on y) /\ onear (Z.of_nat p) (f a) y).
  { intros j n t r p f F E FI P. apply rd_num; auto. split; intros X.
    - destruct (col rows j) eqn:C; auto. exfalso. apply col_some in C. destruct C as [b [Ib C]]. rewrite E in C.
      pose proof (proj1 (U f F b Ib) X) as Y. rewrite Y in C. discriminate.
    - pose proof (col_false rows j a I X) as Y. rewrite E in Y. apply isna_on in Y; auto. }
  assert (RN : forall j n t r p x, nth j (cells a) None = Some (CN x) -> finite x -> dget str_eqb t default_precision = Some p ->
      exists y, rd (mkcolumn n t KNum r) (col rows j) (Some (CN x)) = Ok (Some (CN y)) /\ near (Z.of_nat p) x y).
  { intros j n t r p x E FI P. destruct (rd_num n t r p (col rows j) (Some x) P) as [y [R O]].
    - intros v V. injection V as <-. auto.
    - split; [discriminate|]. intros C. pose proof (col_false rows j a I C) as Y. rewrite E in Y. destruct FI as [q [-> _]]. discriminate Y.
    - destruct y as [y|]; [|destruct O]. exists y. auto. }
  assert (FIN : forall f, In f [a_rmsra; a_rmsdec; a_corr; a_mag; a_rmsmag; a_snr; a_seeing; a_exp] -> forall b, In b rows -> ofinite (f b)).
  { intros f F b Ib. destruct (NU b Ib) as (M1 & M2 & M3 & M4 & M5 & M6 & M7 & M8 & M9 & M10 & M11).
    cbn in F. repeat (destruct F as [<-|F]; [auto using orms_finite|]). destruct F. }
  pose proof (STR 0%nat (s_ "permID") (s_ "permID") false (a_perm a) eq_refl (IDS _ S1)) as E0.
  pose proof (STR 1%nat (s_ "provID") (s_ "provID") false (a_prov a) eq_refl (IDS _ S2)) as E1.
  pose proof (STR 2%nat (s_ "trkSub") (s_ "trkSub") false (a_trk a) eq_refl (IDS _ S3)) as E2.
  pose proof (STR 3%nat (s_ "obsSubID") (s_ "obsSubID") false (a_sub a) eq_refl S4) as E3.
  assert (E4 : rd (mkcolumn (s_ "obsTime") (s_ "obsTime") KTime true) (col rows 4%nat) (Some (CT (a_time a))) = Ok (Some (CT (again (a_time a))))).
  { rewrite (col_true rows 4%nat a I eq_refl). apply rd_time. }
  destruct (rd_num0 (s_ "rmsTime") (s_ "rmsTime") false (col rows 5%nat) (a_rmstime a) eq_refl N5) as [y5 [E5 O5]].
  { intros B. apply isna_on; auto. exact (col_false rows 5%nat a I B). }
  destruct (RN 6%nat (s_ "ra") (s_ "ra") true 9%nat (a_ra a) eq_refl N1 eq_refl) as [y6 [E6 O6]].
  destruct (RN 7%nat (s_ "dec") (s_ "dec") true 9%nat (a_dec a) eq_refl N2 eq_refl) as [y7 [E7 O7]].
  destruct (NUM 8%nat (s_ "rmsRA") (s_ "rmsRACosDec") false 5%nat a_rmsra ltac:(cbn; tauto) (fun b => eq_refl) (FIN a_rmsra ltac:(cbn; tauto)) eq_refl) as [y8 [E8 O8]].
  destruct (NUM 9%nat (s_ "rmsDec") (s_ "rmsDec") false 5%nat a_rmsdec ltac:(cbn; tauto) (fun b => eq_refl) (FIN a_rmsdec ltac:(cbn; tauto)) eq_refl) as [y9 [E9 O9]].
  destruct (NUM 10%nat (s_ "rmsCorr") (s_ "rmsCorr") false 8%nat a_corr ltac:(cbn; tauto) (fun b => eq_refl) (FIN a_corr ltac:(cbn; tauto)) eq_refl) as [y10 [E10 O10]].
  destruct (NUM 11%nat (s_ "mag") (s_ "mag") false 4%nat a_mag ltac:(cbn; tauto) (fun b => eq_refl) (FIN a_mag ltac:(cbn; tauto)) eq_refl) as [y11 [E11 O11]].
  destruct (NUM 12%nat (s_ "rmsMag") (s_ "rmsMag") false 4%nat a_rmsmag ltac:(cbn; tauto) (fun b => eq_refl) (FIN a_rmsmag ltac:(cbn; tauto)) eq_refl) as [y12 [E12 O12]].
  pose proof (STR 13%nat (s_ "band") (s_ "band") false (a_band a) eq_refl S5) as E13.
  pose proof (REQ 14%nat (s_ "stn") (s_ "stn") true (a_stn a) eq_refl S6) as E14.
  pose proof (REQ 15%nat (s_ "mode") (s_ "mode") true (a_mode a) eq_refl S7) as E15.
  pose proof (REQ 16%nat (s_ "astCat") (s_ "astCat") true (a_cat a) eq_refl S8) as E16.
  pose proof (STR 17%nat (s_ "photCat") (s_ "photCat") false (a_phot a) eq_refl S9) as E17.
  destruct (NUM 18%nat (s_ "logSNR") (s_ "logSNR") false 2%nat a_snr ltac:(cbn; tauto) (fun b => eq_refl) (FIN a_snr ltac:(cbn; tauto)) eq_refl) as [y18 [E18 O18]].
  destruct (NUM 19%nat (s_ "seeing") (s_ "seeing") false 2%nat a_seeing ltac:(cbn; tauto) (fun b => eq_refl) (FIN a_seeing ltac:(cbn; tauto)) eq_refl) as [y19 [E19 O19]].
  destruct (NUM 20%nat (s_ "exp") (s_ "exp") false 2%nat a_exp ltac:(cbn; tauto) (fun b => eq_refl) (FIN a_exp ltac:(cbn; tauto)) eq_refl) as [y20 [E20 O20]].
  assert (E21 : rd (mkcolumn (s_ "remarks") (s_ "remarks") KText false) (col rows 21%nat) (os (a_remarks a)) = Ok (os (a_remarks a))).
  { apply rd_text; auto. intros B. apply isna_os. exact (col_false rows 21%nat a I B). }
  assert (PR : present rows = map (col rows) [0;1;2;3;4;5;6;7;8;9;10;11;12;13;14;15;16;17;18;19;20;21]%nat) by reflexivity.
  rewrite PR. clear PR. cbn [map]. unfold schema, cells. cbn [combine mapM fst snd].
  rewrite E0, E1, E2, E3, E4, E5, E6, E7, E8, E9, E10, E11, E12, E13, E14, E15, E16, E17, E18, E19, E20, E21. cbn [bind].
  assert (TS : forall x, to_s (os x) = x) by (intros [x|]; reflexivity). assert (TN : forall x, to_n (on x) = x) by (intros [x|]; reflexivity).
  unfold of_cells. rewrite !TS, !TN. cbn [bind req to_n to_s].
  rewrite (rms_range _ _ N3 O8), (rms_range _ _ N4 O9). cbn [andb]. eexists. split; [reflexivity|].
  unfold reread. cbn [a_perm a_prov a_trk a_sub a_time a_rmstime a_ra a_dec a_rmsra a_rmsdec a_corr a_mag a_rmsmag a_band a_stn a_mode a_cat a_phot a_snr a_seeing a_exp a_remarks].
  repeat (split; [first [reflexivity|assumption]|]). reflexivity.
Qed.

(* ---- the lines of a block ---- *)
Lemma fixed_chars : forall p q, Forall (fun c => numc c = true) (fixed p q).
Proof.
  intros p q. unfold fixed. set (n := round_he _).
  assert (N : 0 <= n).
  { unfold n. set (a := if Qle_bool 0 q then q else (- q)%Q).
    assert (A : (0 <= a)%Q). { unfold a. destruct (Qle_bool 0 q) eqn:E; [apply Qle_bool_iff in E; auto|]. destruct (Qlt_le_dec q 0) as [X|X]; [lra|]. apply Qle_bool_iff in X. congruence. }
    assert (P0 : (0 <= inject_Z (10 ^ Z.of_nat p))%Q) by (change 0%Q with (inject_Z 0); rewrite <- Zle_Qle; apply Z.pow_nonneg; lia).
    pose proof (Qmult_le_0_compat _ _ A P0) as AP. destruct (round_he_near (a * inject_Z (10 ^ Z.of_nat p))%Q) as [R1 R2].
    assert (X : (-1 < inject_Z (round_he (a * inject_Z (10 ^ Z.of_nat p))))%Q) by lra. change (-1)%Q with (inject_Z (-1)) in X. rewrite <- Zlt_Qlt in X. lia. }
  destruct (fixed_body p n N) as [w [ip [fp [-> [T V]]]]]. destruct (text_plain _ _ _ T) as [PL _].
  apply Forall_app. split; [destruct (Qle_bool 0 q); repeat constructor|]. eapply Forall_impl; [|exact PL]; intros c Hc; unfold numc; rewrite Hc; auto.
Qed.
Lemma num_okt : forall p x, okt (show_num p x).
Proof.
  intros p x. destruct x as [q|[|]|]; [apply numc_okt; apply fixed_chars| | |];
    (apply okt_chars; repeat constructor; try discriminate; try (apply white_not; reflexivity); intros I; cbn in I; intuition discriminate).
Qed.
Lemma nan_okt : okt (s_ "nan").
Proof. exact (num_okt 0 FNan). Qed.
Lemma cell_okt : forall k x, okt (ctext k (on x)).
Proof.
  intros k x. destruct x as [v|]; cbn [on option_map cell_text].
  - destruct (dget _ _ _); [apply num_okt|]. destruct v; [apply num_okt|apply num_okt|apply okt_nil].
  - destruct (k_kind k); try apply okt_nil. destruct (dget _ _ _); [apply nan_okt|apply okt_nil].
Qed.
Lemma str_okt : forall n t kd r x, kd = KStr \/ kd = KText -> osafe x -> okt (ctext (mkcolumn n t kd r) (os x)).
Proof. intros n t kd r x K S. destruct x as [v|]; [apply safe_okt; auto|]. destruct K as [-> | ->]; apply okt_nil. Qed.
Lemma texts_okt : forall a, safe_row a -> Forall okt (texts a).
Proof.
  intros a (S1 & S2 & S3 & S4 & S5 & S6 & S7 & S8 & S9 & S10).
  assert (IDS : forall x, id_safe x -> osafe x) by (intros x H y E; destruct (H y E); auto).
  unfold texts, schema, cells. cbn [combine map fst snd].
  repeat (constructor; [first [apply str_okt; [auto|auto] | apply cell_okt | apply stamp_okt | apply (cell_okt _ (Some _)) | apply safe_okt; assumption]|]). constructor.
Qed.
Lemma csv_id : forall t, Forall safe_char t -> csv_field t = t.
Proof.
  intros t F. unfold csv_field. destruct (existsb special t) eqn:E; auto. exfalso. apply existsb_exists in E. destruct E as [c [I S]].
  rewrite Forall_forall in F. apply (F c I). unfold special, NL in S. rewrite !Bool.orb_true_iff, !Ascii.eqb_eq in S. cbn. intuition auto.
Qed.
Lemma csv_ids : forall l, Forall okt l -> map csv_field l = l.
Proof. intros l H. induction H as [|t l [_ [F _]] H IH]; auto. cbn. rewrite csv_id, IH by auto. reflexivity. Qed.
Lemma pick_Forall : forall A (P : A -> Prop) mask l, Forall P l -> Forall P (pick mask l).
Proof. intros A P mask l H. rewrite Forall_forall in *. intros x Hx. apply H. eapply pick_In; eauto. Qed.
Lemma names_okt : Forall (fun n => n <> [] /\ trimmed n /\ Forall safe_char n /\ ~ In "#"%char n /\ ~ In "!"%char n) (map k_name schema).
Proof.
  assert (G : forallb (fun n => negb (existsb (fun c => is_space c || existsb (Ascii.eqb c) ["|"; """"; "010"; "013"; "#"; "!"]%char) n) && negb (str_eqb n [])) (map k_name schema) = true) by (vm_compute; reflexivity).
  rewrite forallb_forall in G. apply Forall_forall. intros n Hn. specialize (G n Hn). apply Bool.andb_true_iff in G. destruct G as [G1 G2]. apply Bool.negb_true_iff in G1, G2.
  assert (H : forall c, In c n -> ~ white c /\ ~ In c ["|"; """"; "010"; "013"; "#"; "!"]%char).
  { intros c Hc. assert (X : is_space c || existsb (Ascii.eqb c) ["|"; """"; "010"; "013"; "#"; "!"]%char = false).
    { destruct (_ || _) eqn:E; auto. exfalso. assert (existsb (fun c => is_space c || existsb (Ascii.eqb c) ["|"; """"; "010"; "013"; "#"; "!"]%char) n = true) by (apply existsb_exists; exists c; auto). congruence. }
    apply Bool.orb_false_iff in X. destruct X as [X1 X2]. split; [apply white_not; auto|]. intros I.
    assert (existsb (Ascii.eqb c) ["|"; """"; "010"; "013"; "#"; "!"]%char = true) by (apply existsb_exists; exists c; split; auto; apply Ascii.eqb_refl). congruence. }
  split; [intros ->; discriminate|]. split; [split; intros c r ->; apply H; [cbn; auto|apply in_or_app; cbn; auto]|].
  split; [apply Forall_forall; intros c Hc I; apply (H c Hc); cbn in I |- *; tauto|]. split; intros I; apply H in I; apply I; cbn; tauto.
Qed.
Definition header_line (rows : list ades) : str := join "|" (map csv_field (pick (present rows) (map k_name schema))).
Lemma pipe_not_white : ~ white "|"%char.
Proof. apply white_not. reflexivity. Qed.
Lemma In_join : forall c l x, In x (join c l) -> x = c \/ exists t, In t l /\ In x t.
Proof.
  intros c l x. induction l as [|y l IH]; intros H; [destruct H|]. destruct l as [|z l]; [right; exists y; cbn; auto|].
  change (join c (y :: z :: l)) with (y ++ c :: join c (z :: l)) in H. apply in_app_or in H. destruct H as [H|[H|H]]; [right; exists y; cbn; auto|auto|].
  destruct (IH H) as [->|[t [I T]]]; auto. right. exists t. cbn in *. auto.
Qed.
Lemma is_meta_iff : forall l, is_meta l = true <-> exists r, l = "#"%char :: r \/ l = "!"%char :: r.
Proof.
  intros l. unfold is_meta. rewrite Bool.orb_true_iff, !startswith_iff. cbn [s_ list_ascii_of_string app]. split.
  - intros [[b E]|[b E]]; exists b; auto.
  - intros [r [E|E]]; [left|right]; exists r; auto.
Qed.
Lemma join_nonempty : forall c x y l, join c (x :: y :: l) <> [].
Proof. intros c x y l H. change (join c (x :: y :: l)) with (x ++ c :: join c (y :: l)) in H. apply app_eq_nil in H. destruct H. discriminate. Qed.
Lemma present_shape : forall rows, exists r, present rows = col rows 0%nat :: col rows 1%nat :: col rows 2%nat :: col rows 3%nat :: col rows 4%nat :: r.
Proof. intros rows. unfold present, schema. cbn [List.length seq map]. eexists. reflexivity. Qed.
Lemma names_shape : exists r, map k_name schema = s_ "permID" :: s_ "provID" :: s_ "trkSub" :: r.
Proof. unfold schema. cbn [map k_name]. eexists. reflexivity. Qed.
Definition name_ok (n : str) : Prop := n <> [] /\ trimmed n /\ Forall safe_char n /\ ~ In "#"%char n /\ ~ In "!"%char n.
Lemma names_csv : forall l, Forall name_ok l -> map csv_field l = l.
Proof. intros l F. induction F as [|t l [_ [_ [Fs _]]] H IH]; auto. cbn [map]. rewrite csv_id, IH by auto. reflexivity. Qed.
Lemma names_strip : forall l, Forall name_ok l -> map strip l = l.
Proof. intros l F. induction F as [|t l [_ [T _]] H IH]; auto. cbn [map]. rewrite strip_trimmed, IH by auto. reflexivity. Qed.
Lemma header_facts : forall rows, rows <> [] -> (exists a, In a rows /\ (a_perm a <> None \/ a_prov a <> None \/ a_trk a <> None)) ->
  let ns := pick (present rows) (map k_name schema) in
  trimmed (header_line rows) /\ header_line rows <> [] /\ ~ In NL (header_line rows) /\ is_meta (header_line rows) = false /\ is_header (header_line rows) = true /\
  map strip (split_on "|" (header_line rows)) = ns.
Proof.
  intros rows R [a [Ia ID]] ns. assert (F : Forall name_ok ns) by (apply pick_Forall; exact names_okt).
  assert (CS : map csv_field ns = ns).
  { apply names_csv. exact F. }
  unfold header_line. fold ns. rewrite CS.
  assert (C4 : col rows 4%nat = true) by (apply (col_true rows 4%nat a Ia); reflexivity).
  assert (HID : exists n, In n ns /\ In n keywords /\ ns <> []).
  { assert (K : col rows 0%nat = true \/ col rows 1%nat = true \/ col rows 2%nat = true).
    { destruct ID as [H|[H|H]]; [left; apply (col_true rows 0%nat a Ia)|right; left; apply (col_true rows 1%nat a Ia)|right; right; apply (col_true rows 2%nat a Ia)]; cbn [nth cells];
        [destruct (a_perm a)|destruct (a_prov a)|destruct (a_trk a)]; try congruence; reflexivity. }
    destruct names_shape as [nr EN]. destruct (present_shape rows) as [mr EP]. assert (E : ns = pick (present rows) (map k_name schema)) by reflexivity. rewrite EN, EP in E.
    cbn [pick] in E. rewrite E. destruct (col rows 0%nat); [exists (s_ "permID"); split; [left; reflexivity|split; [left; reflexivity|discriminate]]|].
    destruct (col rows 1%nat); [exists (s_ "provID"); split; [left; reflexivity|split; [right; left; reflexivity|discriminate]]|]. destruct K as [K|[K|K]]; try discriminate. rewrite K.
    exists (s_ "trkSub"). split; [left; reflexivity|split; [right; right; left; reflexivity|discriminate]]. }
  destruct HID as [n [In_n [Kn NN]]].
  assert (NI : forall c, In c (join "|" ns) -> c <> NL /\ c <> "#"%char /\ c <> "!"%char).
  { intros c Hc. apply In_join in Hc. destruct Hc as [->|[t [It Hc]]]; [repeat split; discriminate|]. rewrite Forall_forall in F. destruct (F t It) as (_ & _ & Fs & F1 & F2).
    rewrite Forall_forall in Fs. specialize (Fs c Hc). repeat split; intros ->; [apply Fs; cbn; auto|auto|auto]. }
  split; [apply trimmed_join; [apply pipe_not_white|]; eapply Forall_impl; [|exact F]; intros t X; apply X|].
  assert (JO : forall l, In n l -> occurs n (join "|" l)).
  { clear. induction l as [|x l IH]; intros H; [destruct H|]. destruct l as [|y l].
    - destruct H as [->|[]]. exists [], []. cbn. rewrite app_nil_r. reflexivity.
    - change (join "|" (x :: y :: l)) with (x ++ "|"%char :: join "|" (y :: l)). destruct H as [->|H].
      + exists [], ("|"%char :: join "|" (y :: l)). reflexivity.
      + destruct (IH H) as [u [v E]]. exists (x ++ "|"%char :: u), v. rewrite E. rewrite <- app_assoc. reflexivity. }
  specialize (JO ns In_n).
  split. { intros E. rewrite E in JO. destruct JO as [u [v X]]. destruct (keyword_facts n Kn) as [Nn _]. destruct u; [destruct n; [congruence|discriminate]|discriminate]. }
  split. { intros H. destruct (NI _ H) as [X _]. congruence. }
  split. { destruct (is_meta (join "|" ns)) eqn:M; auto. apply is_meta_iff in M. destruct M as [r [M|M]]; rewrite M in NI; destruct (NI _ (or_introl eq_refl)) as (_ & X1 & X2); congruence. }
  split; [apply is_header_iff; exists n; auto|].
  rewrite split_join.
  - apply names_strip. exact F.
  - auto.
  - eapply Forall_impl; [|exact F]. intros t (_ & _ & Fs & _) I. rewrite Forall_forall in Fs. apply (Fs _ I). cbn. auto.
Qed.
Lemma texts_shape : forall a, exists t3 t4 r, texts a =
  ctext (mkcolumn (s_ "permID") (s_ "permID") KStr false) (os (a_perm a)) :: ctext (mkcolumn (s_ "provID") (s_ "provID") KStr false) (os (a_prov a)) ::
  ctext (mkcolumn (s_ "trkSub") (s_ "trkSub") KStr false) (os (a_trk a)) :: t3 :: t4 :: r.
Proof. intros a. unfold texts, schema, cells. cbn [combine map fst snd]. eexists _, _, _. reflexivity. Qed.
Lemma row_facts : forall rows a, In a rows -> (exists a, In a rows /\ (a_perm a <> None \/ a_prov a <> None \/ a_trk a <> None)) -> safe_row a ->
  let l := row_line show default_precision (present rows) a in
  trimmed l /\ l <> [] /\ ~ In NL l /\ is_meta l = false /\ is_header l = false /\ split_on "|" l = pick (present rows) (texts a).
Proof.
  intros rows a Ia [a0 [I0 ID]] S l.
  pose proof (texts_okt a S) as F. pose proof (pick_Forall _ _ (present rows) _ F) as FP.
  assert (L : l = join "|" (pick (present rows) (texts a))) by (unfold l, row_line; fold (texts a); rewrite csv_ids by auto; reflexivity).
  assert (K : col rows 0%nat = true \/ col rows 1%nat = true \/ col rows 2%nat = true).
  { destruct ID as [H|[H|H]]; [left; apply (col_true rows 0%nat a0 I0)|right; left; apply (col_true rows 1%nat a0 I0)|right; right; apply (col_true rows 2%nat a0 I0)]; cbn [nth cells];
      [destruct (a_perm a0)|destruct (a_prov a0)|destruct (a_trk a0)]; try congruence; reflexivity. }
  destruct S as (S1 & S2 & S3 & _).
  assert (SH : exists x y r, pick (present rows) (texts a) = x :: y :: r /\ (x = [] \/ id_safe (Some x))).
  { assert (C4 : col rows 4%nat = true) by (apply (col_true rows 4%nat a Ia); reflexivity).
    destruct (texts_shape a) as [t3 [t4 [r ET]]]. destruct (present_shape rows) as [mr EP]. rewrite ET, EP, C4.
    assert (W : forall x, id_safe x -> forall n t rq, ctext (mkcolumn n t KStr rq) (os x) = [] \/ id_safe (Some (ctext (mkcolumn n t KStr rq) (os x)))).
    { intros [x|] H n t rq; [right; exact H|left; reflexivity]. }
    cbn [pick]. destruct (col rows 0%nat).
    - destruct (col rows 1%nat), (col rows 2%nat), (col rows 3%nat); eexists _, _, _; (split; [reflexivity|apply W; auto]).
    - destruct (col rows 1%nat).
      + destruct (col rows 2%nat), (col rows 3%nat); eexists _, _, _; (split; [reflexivity|apply W; auto]).
      + destruct K as [K|[K|K]]; try discriminate. rewrite K. destruct (col rows 3%nat); eexists _, _, _; (split; [reflexivity|apply W; auto]). }
  destruct SH as [x [y [r [E X]]]].
  split; [rewrite L; apply trimmed_join; [apply pipe_not_white|]; eapply Forall_impl; [|exact FP]; intros t [T _]; exact T|].
  split; [rewrite L, E; apply join_nonempty|].
  split. { rewrite L. intros H. apply In_join in H. destruct H as [H|[t [It H]]]; [discriminate|]. rewrite Forall_forall in FP. destruct (FP t It) as [_ [Fs _]]. rewrite Forall_forall in Fs. apply (Fs _ H). cbn. auto. }
  split. { destruct (is_meta l) eqn:M; auto. exfalso. apply is_meta_iff in M. destruct M as [q M]. rewrite L, E in M. change (join "|" (x :: y :: r)) with (x ++ "|"%char :: join "|" (y :: r)) in M.
    destruct x as [|c x]; [cbn in M; destruct M; discriminate|]. destruct X as [X|X]; [discriminate|]. destruct (X _ eq_refl) as [_ Y]. destruct (Y c x eq_refl) as [Y1 Y2]. cbn in M. destruct M as [M|M]; injection M as M _; congruence. }
  split. { destruct (is_header l) eqn:M; auto. exfalso. apply is_header_iff in M. destruct M as [k [Kk O]]. rewrite L in O. destruct (keyword_facts k Kk) as [K1 [K2 _]].
    apply occurs_join in O; auto. destruct O as [t [It O]]. rewrite Forall_forall in FP. destruct (FP t It) as [_ [_ N]]. exact (N k Kk O). }
  rewrite L. apply split_join; [rewrite E; discriminate|]. eapply Forall_impl; [|exact FP]. intros t [_ [Fs _]] I. rewrite Forall_forall in Fs. apply (Fs _ I). cbn. auto.
Qed.
End Cells.
