(* Apparitions and groups of objects. *)
From Coq Require Import Reals Lra.
From Coq Require Import List String Bool Permutation Sorted.
From Verif Require Import Base ListLemmas StrOrder PhotModel PhotH RotModel RotScore RotFit RotClus RotDerive RotEst RotMain.
Import ListNotations.
Open Scope string_scope.
Open Scope list_scope.
Open Scope R_scope.
Opaque fit_with_period amplitude search fit_frequency fit_unclipped estimate.

Section Split.
Variable gap : R.
Variable t : nat -> R.
Let chain (i j : nat) : Prop := t j - t i <= gap.
Let far (g h : list nat) : Prop := forall i j, In i g -> In j h -> gap < t j - t i.
Let le_t (i j : nat) : Prop := t i <= t j.

Lemma split_concat l : forall cur prev, concat (split_gaps gap cur prev l) = cur ++ map fst l.
Proof.
  induction l as [|[i u] l IH]; intros cur prev; cbn [split_gaps map fst]; [cbn; rewrite !app_nil_r; reflexivity|].
  destruct (rlt gap (u - prev)); [cbn [concat]; rewrite IH; reflexivity|]. rewrite IH, <- app_assoc. reflexivity.
Qed.
Lemma chain_snoc g i : Sorted chain g -> g <> [] -> t i - t (last g 0%nat) <= gap -> Sorted chain (g ++ [i]).
Proof.
  intros S. induction S as [|x g S IH H]; [congruence|]. intros _ K. destruct g as [|y g].
  - cbn in *. constructor; [constructor; constructor|constructor; exact K].
  - cbn [app]. constructor; [apply IH; [discriminate|exact K]|]. inversion H; subst. constructor. assumption.
Qed.
Lemma le_last g : StronglySorted le_t g -> forall i, In i g -> t i <= t (last g 0%nat).
Proof.
  induction 1 as [|x g S IH F]; [intros i []|]. intros i Hi. destruct g as [|y g].
  - destruct Hi as [<-|[]]. cbn. lra.
  - change (last (x :: y :: g) 0%nat) with (last (y :: g) 0%nat). destruct Hi as [<-|Hi]; [|apply IH; exact Hi].
    rewrite Forall_forall in F. apply F. apply last_In. discriminate.
Qed.
Lemma ss_app_l l1 l2 : StronglySorted le_t (l1 ++ l2) -> StronglySorted le_t l1.
Proof.
  induction l1 as [|x l1 IH]; cbn; intros H; [constructor|]. inversion H; subst. constructor; [auto|].
  rewrite Forall_forall in *. intros y Hy. apply H3. apply in_or_app. auto.
Qed.
Lemma ss_app_r l1 l2 : StronglySorted le_t (l1 ++ l2) -> StronglySorted le_t l2.
Proof. induction l1 as [|x l1 IH]; cbn; intros H; [exact H|]. inversion H; auto. Qed.

Lemma split_spec_gaps l : forall cur prev, cur <> [] -> prev = t (last cur 0%nat) -> Sorted chain cur ->
  (forall p, In p l -> snd p = t (fst p)) -> StronglySorted le_t (cur ++ map fst l) ->
  Forall (fun g => g <> [] /\ Sorted chain g) (split_gaps gap cur prev l) /\ ForallOrdPairs far (split_gaps gap cur prev l).
Proof.
  induction l as [|[i u] l IH]; intros cur prev NE EP CH HT SS; cbn [split_gaps].
  - split; [constructor; [auto|constructor]|repeat constructor].
  - cbn [map fst] in SS. assert (EU : u = t i) by (apply (HT (i, u)); left; reflexivity).
    assert (HT' : forall p, In p l -> snd p = t (fst p)) by (intros p Hp; apply HT; right; exact Hp).
    destruct (rlt gap (u - prev)) eqn:E.
    + apply rlt_true in E. pose proof (ss_app_r _ _ SS) as S2. destruct (IH [i] u) as [A B];
        [discriminate|exact EU|repeat constructor|exact HT'|exact S2|].
      split; [constructor; auto|]. constructor; [|exact B]. apply Forall_forall. intros g Hg a b Ha Hb.
      pose proof (le_last _ (ss_app_l _ _ SS) a Ha) as L1.
      assert (IB : In b (i :: map fst l)) by (change (i :: map fst l) with ([i] ++ map fst l); rewrite <- (split_concat l [i] u); apply in_concat; eauto).
      assert (L2 : t i <= t b). { destruct IB as [<-|IB]; [lra|]. inversion S2 as [|? ? _ F]; subst. rewrite Forall_forall in F. apply F. exact IB. }
      lra.
    + apply rlt_false in E. apply (IH (cur ++ [i]) u).
      * destruct cur; discriminate.
      * rewrite last_last. exact EU.
      * apply chain_snoc; [exact CH|exact NE|]. rewrite <- EP, <- EU. exact E.
      * exact HT'.
      * rewrite <- app_assoc. exact SS.
Qed.
End Split.

Lemma map_fst_combine {A B} (a : list A) : forall b : list B, List.length a = List.length b -> map fst (combine a b) = a.
Proof. induction a as [|x a IH]; intros [|y b] H; try discriminate; [reflexivity|]. cbn. f_equal. apply IH. injection H; auto. Qed.
Lemma combine_seq_in ts i u : In (i, u) (combine (seq 0 (List.length ts)) ts) -> u = nth i ts 0.
Proof.
  intros H. apply In_nth_error in H. destruct H as (k & Hk).
  assert (A : nth_error (seq 0 (List.length ts)) k = Some i /\ nth_error ts k = Some u).
  { revert Hk. generalize (seq 0 (List.length ts)). intros l. revert l ts. induction k as [|k IH]; intros [|x l] [|y m]; cbn; try discriminate; [intros [= -> ->]; auto|apply IH]. }
  destruct A as [A B]. assert (L : (k < List.length ts)%nat) by (apply nth_error_Some; congruence).
  apply nth_error_nth with (d := 0%nat) in A. rewrite seq_nth in A by exact L. cbn in A. subst k.
  symmetry. apply nth_error_nth. exact B.
Qed.
Lemma sorted_map {A B} (R : A -> A -> Prop) (Q : B -> B -> Prop) (f : A -> B) l :
  (forall x y, In x l -> In y l -> R x y -> Q (f x) (f y)) -> StronglySorted R l -> StronglySorted Q (map f l).
Proof.
  intros H K. induction K; [constructor|]. cbn. constructor.
  - apply IHK. intros x y Hx Hy. apply H; right; assumption.
  - rewrite Forall_forall in *. intros y Hy. apply in_map_iff in Hy. destruct Hy as (z & <- & Hz). apply H; [left; reflexivity|right; exact Hz|auto].
Qed.

Lemma apparitions_spec gap ts : let t i := nth i ts 0 in
  Permutation (concat (apparitions gap ts)) (seq 0 (List.length ts)) /\
  StronglySorted (fun i j => t i <= t j) (concat (apparitions gap ts)) /\
  Forall (Sorted (fun i j => t j - t i <= gap)) (apparitions gap ts) /\
  ForallOrdPairs (fun g h => forall i j, In i g -> In j h -> gap < t j - t i) (apparitions gap ts) /\
  (ts <> [] -> Forall (fun g => g <> []) (apparitions gap ts)).
Proof.
  cbv zeta. unfold apparitions. set (t := fun i => nth i ts 0).
  set (l := combine (seq 0 (List.length ts)) ts).
  assert (TT : forall a b, time_leb a b = true \/ time_leb b a = true).
  { intros a b. unfold time_leb. rewrite !rle_true. destruct (Rle_or_lt (snd a) (snd b)); [left|right]; lra. }
  assert (TR : forall a b c, time_leb a b = true -> time_leb b c = true -> time_leb a c = true).
  { intros a b c. unfold time_leb. rewrite !rle_true. lra. }
  pose proof (sort_sorted time_leb TT TR l) as SS. pose proof (sort_perm time_leb l) as PM. 
  assert (IN : forall p, In p (sort time_leb l) -> snd p = t (fst p)).
  { intros [i u] Hp. rewrite sort_In in Hp. apply combine_seq_in in Hp. exact Hp. }
  assert (MF : Permutation (map fst (sort time_leb l)) (seq 0 (List.length ts))).
  { eapply perm_trans; [apply Permutation_map; first [exact PM|apply Permutation_sym; exact PM]|].
    unfold l. rewrite map_fst_combine by apply seq_length. apply Permutation_refl. }
  assert (SM : StronglySorted (fun i j => t i <= t j) (map fst (sort time_leb l))).
  { apply (sorted_map (Base.le time_leb)); [|exact SS]. intros x y Hx Hy H. unfold Base.le, time_leb in H. apply rle_true in H.
    rewrite (IN x Hx), (IN y Hy) in H. exact H. }
  destruct (sort time_leb l) as [|[i u] r] eqn:E.
  { cbn in MF. assert (LZ : List.length ts = 0%nat) by (apply Permutation_length in MF; rewrite seq_length in MF; auto).
    destruct ts; [|discriminate]. cbn. repeat split; repeat constructor. congruence. }
  cbn [map fst] in MF, SM.
  destruct (split_spec_gaps gap t r [i] u) as [A B]; [discriminate|exact (IN (i, u) (or_introl eq_refl))|repeat constructor| |exact SM|].
  { intros p Hp. apply IN. right. exact Hp. }
  rewrite split_concat. split; [exact MF|]. split; [exact SM|]. split; [|split; [exact B|]].
  - rewrite Forall_forall in *. intros g Hg. apply (A g Hg).
  - intros _. rewrite Forall_forall in *. intros g Hg. apply (A g Hg).
Qed.

(* ---- the best apparition ---- *)
Definition snr_le (x y : option R) : Prop := match x, y with None, _ => True | Some _, None => False | Some u, Some v => u <= v end.
Lemma better_irrefl a : better_row a a = false.
Proof.
  unfold better_row. rewrite !Nat.ltb_irrefl. destruct (p_snr (snd a)) as [u|]; [|reflexivity].
  assert (E : rlt u u = false) by (apply rlt_false; lra). rewrite E. reflexivity.
Qed.
(* the order behind the choice *)
Definition olt (x y : option R) : bool := match x, y with None, Some _ => true | Some u, Some v => rlt u v | _, None => false end.
Lemma olt_cases x y : (olt x y = true /\ olt y x = false) \/ (olt x y = false /\ olt y x = true) \/ (olt x y = false /\ olt y x = false /\ x = y).
Proof.
  destruct x as [u|], y as [v|]; cbn; auto.
  destruct (Rtotal_order u v) as [H|[->|H]].
  - left. split; [apply rlt_true; exact H|apply rlt_false; lra].
  - right. right. assert (E : rlt v v = false) by (apply rlt_false; lra). auto.
  - right. left. split; [apply rlt_false; lra|apply rlt_true; exact H].
Qed.
Lemma olt_trans x y z : olt x y = true -> olt y z = true -> olt x z = true.
Proof.
  destruct x as [u|], y as [v|], z as [w|]; cbn; try discriminate; auto. rewrite !rlt_true. lra.
Qed.
Lemma better_unfold a b : better_row a b =
  if Nat.ltb (rank (p_verdict (snd a))) (rank (p_verdict (snd b))) then true else
  if Nat.ltb (rank (p_verdict (snd b))) (rank (p_verdict (snd a))) then false else
  if olt (p_snr (snd a)) (p_snr (snd b)) then true else if olt (p_snr (snd b)) (p_snr (snd a)) then false else
  if Nat.ltb (p_nobs (snd a)) (p_nobs (snd b)) then true else if Nat.ltb (p_nobs (snd b)) (p_nobs (snd a)) then false else
  Nat.ltb (fst b) (fst a).
Proof. reflexivity. Qed.
Lemma nltb_cases a b : (Nat.ltb a b = true /\ Nat.ltb b a = false /\ (a < b)%nat) \/ (Nat.ltb a b = false /\ Nat.ltb b a = true /\ (b < a)%nat) \/ (Nat.ltb a b = false /\ Nat.ltb b a = false /\ a = b).
Proof. destruct (Nat.ltb_spec a b), (Nat.ltb_spec b a); [lia|left|right; left|right; right]; repeat split; lia. Qed.
(* b does not beat m, and m beats or equals: a total preorder *)
Lemma better_false m x : better_row m x = false <->
  (rank (p_verdict (snd x)) < rank (p_verdict (snd m)))%nat \/
  rank (p_verdict (snd x)) = rank (p_verdict (snd m)) /\
   (olt (p_snr (snd x)) (p_snr (snd m)) = true \/
    p_snr (snd x) = p_snr (snd m) /\
     ((p_nobs (snd x) < p_nobs (snd m))%nat \/ p_nobs (snd x) = p_nobs (snd m) /\ (fst m <= fst x)%nat)).
Proof.
  rewrite better_unfold.
  destruct (nltb_cases (rank (p_verdict (snd m))) (rank (p_verdict (snd x)))) as [(A1 & A2 & H)|[(A1 & A2 & H)|(A1 & A2 & H)]]; rewrite A1, ?A2.
  - split; [discriminate|]. intros [K|[K _]]; lia.
  - split; auto.
  - destruct (olt_cases (p_snr (snd m)) (p_snr (snd x))) as [(E1 & E)|[(E1 & E)|(E1 & E & Q)]]; rewrite E1, ?E.
    + split; [discriminate|]. intros [K|[K [L|[L _]]]]; [lia|discriminate|]. rewrite L in E1, E. congruence.
    + split; auto.
    + destruct (nltb_cases (p_nobs (snd m)) (p_nobs (snd x))) as [(B1 & B2 & P)|[(B1 & B2 & P)|(B1 & B2 & P)]]; rewrite B1, ?B2.
      * split; [discriminate|]. intros [K|[K [L|[L [M|[M _]]]]]]; try lia; try discriminate.
      * split; auto. intros _. right. split; [auto|]. right. split; auto.
      * rewrite Nat.ltb_ge. split.
        -- intros K. right. split; [auto|]. right. split; [auto|]. right. auto.
        -- intros [K|[K [L|[L [M|[M N]]]]]]; try lia; try discriminate.
Qed.
Lemma better_true m y : better_row m y = true -> better_row y m = false.
Proof.
  intros H. apply better_false.
  destruct (nltb_cases (rank (p_verdict (snd m))) (rank (p_verdict (snd y)))) as [(_ & _ & A)|[(A1 & A2 & A)|(A1 & A2 & A)]]; [left; exact A| |].
  { rewrite better_unfold, A1, A2 in H. discriminate. }
  right. split; [exact A|]. destruct (olt_cases (p_snr (snd m)) (p_snr (snd y))) as [(B & _)|[(B1 & B2)|(B1 & B2 & B)]]; [left; exact B| |].
  { rewrite better_unfold, A1, A2, B1, B2 in H. discriminate. }
  right. split; [exact B|]. destruct (nltb_cases (p_nobs (snd m)) (p_nobs (snd y))) as [(_ & _ & C)|[(C1 & C2 & C)|(C1 & C2 & C)]]; [left; exact C| |].
  { rewrite better_unfold, A1, A2, B1, B2, C1, C2 in H. discriminate. }
  right. split; [exact C|]. rewrite better_unfold, A1, A2, B1, B2, C1, C2 in H. apply Nat.ltb_lt in H. lia.
Qed.
Lemma better_trans m y x : better_row y m = false -> better_row m x = false -> better_row y x = false.
Proof.
  rewrite !better_false. intros H K.
  destruct H as [H|[H [H1|[H1 H2]]]], K as [K|[K [K1|[K1 K2]]]]; try (left; lia); try (right; split; [lia|]).
  - left. exact (olt_trans _ _ _ K1 H1).
  - left. rewrite K1. exact H1.
  - left. rewrite <- H1. exact K1.
  - right. split; [congruence|]. destruct H2 as [H2|[H2 H3]], K2 as [K2|[K2 K3]]; [left; lia|left; lia|left; lia|right; lia].
Qed.
Lemma best_row_spec l : forall x, In (best_row l x) (x :: l) /\ forall y, In y (x :: l) -> better_row (best_row l x) y = false.
Proof.
  unfold best_row. induction l as [|z l IH]; intros x; cbn [fold_left].
  - split; [left; reflexivity|]. intros y [<-|[]]. apply better_irrefl.
  - destruct (better_row x z) eqn:E.
    + destruct (IH z) as [A B]. split; [right; exact A|]. intros y [<-|Hy]; [|apply B; exact Hy].
      apply better_trans with z; [apply B; left; reflexivity|apply better_true; exact E].
    + destruct (IH x) as [A B]. split; [destruct A as [A|A]; [left; exact A|right; right; exact A]|].
      intros y [<-|[<-|Hy]]; [apply B; left; reflexivity| |apply B; right; exact Hy].
      apply better_trans with x; [apply B; left; reflexivity|exact E].
Qed.

Section Wrap.
Variable lstsq : list (list R) -> list R -> list R.
Variable hgfit : R -> R -> R * R.
Variable f_cdf : R -> Z -> Z -> R.
Variable f_ppf : R -> Z -> Z -> option R.
Variable light : R.
Let est := estimate lstsq hgfit f_cdf f_ppf light.

Lemma combine_nth_seq {X} (l : list X) n k p : List.length l = n -> nth_error (combine (seq 0 n) l) k = Some p -> fst p = k /\ nth_error l k = Some (snd p).
Proof.
  intros L H. assert (HL : (k < n)%nat). { assert (XX : (k < List.length (combine (seq 0 n) l))%nat) by (apply nth_error_Some; congruence). rewrite combine_length, seq_length in XX. lia. }
  destruct p as [i x]. assert (A : nth_error (seq 0 n) k = Some i /\ nth_error l k = Some x).
  { revert H. generalize (seq 0 n). clear. revert l. induction k as [|k IH]; intros [|y l] [|z m]; cbn; try discriminate; [intros [= -> ->]; auto|apply IH]. }
  destruct A as [A B]. apply nth_error_nth with (d := 0%nat) in A. rewrite seq_nth in A by exact HL. cbn in A. auto.
Qed.
Lemma combine_seq_nth {X} (l : list X) n k x : List.length l = n -> nth_error l k = Some x -> In (k, x) (combine (seq 0 n) l).
Proof.
  intros <- H. assert (HL : (k < List.length l)%nat) by (apply nth_error_Some; congruence).
  assert (A : nth_error (seq 0 (List.length l)) k = Some k).
  { rewrite (nth_error_nth' _ 0%nat) by (rewrite seq_length; exact HL). rewrite seq_nth by exact HL. reflexivity. }
  revert H A. generalize (seq 0 (List.length l)). intros m H A. apply (nth_error_In _ k). clear HL.
  assert (G : forall k' (m' : list nat) (l' : list X) a b, nth_error m' k' = Some a -> nth_error l' k' = Some b -> nth_error (combine m' l') k' = Some (a, b)).
  { induction k' as [|k' IH]; intros [|y m'] [|z l'] a b; cbn; try discriminate; [congruence|apply IH]. }
  apply G; assumption.
Qed.

Definition as_good (r s : row) : Prop :=
  (rank (p_verdict s) < rank (p_verdict r))%nat \/
  rank (p_verdict s) = rank (p_verdict r) /\
   (snr_le (p_snr s) (p_snr r) /\ p_snr s <> p_snr r \/ p_snr s = p_snr r /\ (p_nobs s <= p_nobs r)%nat).

Lemma best_spec o gap l r k n : best_apparition lstsq hgfit f_cdf f_ppf light o gap l = Ok (r, (k, n)) ->
  let gs := apparitions gap (map o_time l) in
  (1 <= k <= n)%nat /\
  ((List.length gs <= 1)%nat /\ k = 1%nat /\ n = 1%nat /\ est o l = Ok r \/
   n = List.length gs /\ (2 <= n)%nat /\
   (exists g, nth_error gs (k - 1) = Some g /\ guarded (List.length g) (est o (take l g)) = Ok r) /\
   forall j g, nth_error gs j = Some g -> exists s, guarded (List.length g) (est o (take l g)) = Ok s /\ as_good r s).
Proof.
  cbv zeta. unfold best_apparition. set (gs := apparitions gap (map o_time l)). clearbody gs.
  destruct (Nat.leb (List.length gs) 1) eqn:L.
  - fold est. destruct (est o l) as [r0|] eqn:E; cbn [bind]; [|discriminate]. intros [= -> <- <-]. split; [lia|]. left.
    apply Nat.leb_le in L. auto.
  - apply Nat.leb_gt in L. fold est. destruct (mapM _ gs) as [rows|] eqn:M; cbn [bind]; [|discriminate].
    pose proof (mapM_length _ _ _ M) as ML.
    destruct (combine (seq 0 (List.length gs)) rows) as [|x rest] eqn:C; [discriminate|].
    pose proof (best_row_spec rest x) as [B1 B2]. set (b := best_row rest x) in *. clearbody b.
    intros [= H1 H2 H3]. subst r k n. rewrite <- C in B1, B2.
    apply In_nth_error in B1. destruct B1 as (kb & B1). apply combine_nth_seq in B1; [|exact ML]. destruct B1 as [F1 F2].
    assert (KB : (kb < List.length gs)%nat) by (rewrite <- ML; apply nth_error_Some; congruence).
    split; [lia|]. right. split; [reflexivity|]. split; [lia|]. split.
    + replace (fst b + 1 - 1)%nat with kb by lia. destruct (nth_error gs kb) as [g|] eqn:G; [|apply nth_error_None in G; lia].
      exists g. split; [reflexivity|]. destruct (mapM_nth _ _ _ _ _ M G) as (y & Y2 & Y1). rewrite F2 in Y1. injection Y1 as <-. exact Y2.
    + intros j g G. destruct (mapM_nth _ _ _ _ _ M G) as (y & Y2 & Y1). exists y. split; [exact Y2|].
      pose proof (B2 (j, y) (combine_seq_nth _ _ _ _ ML Y1)) as B3. apply better_false in B3. cbn [snd fst] in B3. unfold as_good.
      destruct B3 as [B3|[B3 [B4|[B4 B5]]]]; [left; exact B3|right; split; [exact B3|]; left|right; split; [exact B3|right; split; [exact B4|lia]]].
      destruct (p_snr y) as [u|], (p_snr (snd b)) as [w|]; cbn in *; try discriminate; [apply rlt_true in B4; split; [lra|intros [= ->]; lra]|split; [exact I|discriminate]].
Qed.

Lemma guarded_ok n x r : guarded n x = Ok r -> x = Ok r \/ x = Err ValueError /\ r = insufficient_row ["solve_error"] ["solve_error"] n 0 0.
Proof. unfold guarded. destruct x as [y|[]]; try discriminate; intros [= <-]; auto. Qed.

Variable detection exposure coords : Type.
Variable d_exposure : detection -> option string.
Variable e_id : exposure -> string.
Variable heliocentric : coords -> bool.
Variable geometry : detection -> exposure -> coords -> result obs.

Definition rows_of (ids : list (option string)) (ds : list (detection * coords)) (i : string) : list (detection * coords) :=
  map snd (filter (fun p => match fst p with Some j => String.eqb j i | None => false end) (combine ids ds)).

Lemma grouped_spec o es ds ids rows :
  estimate_grouped lstsq hgfit f_cdf f_ppf light detection exposure coords d_exposure e_id heliocentric geometry o es ds ids = Ok rows -> ds <> [] ->
  List.length ids = List.length ds /\
  StronglySorted (fun i j => str_leb i j = true /\ i <> j) (map fst rows) /\
  (forall i, In i (map fst rows) <-> In (Some i) ids) /\
  forall i r, In (i, r) rows ->
    let solo := bind (build_observations detection exposure coords d_exposure e_id heliocentric geometry es (rows_of ids ds i)) (est o) in
    solo = Ok r \/ solo = Err ValueError /\ r = insufficient_row ["solve_error"] ["solve_error"] (List.length (rows_of ids ds i)) 0 0.
Proof.
  unfold estimate_grouped. destruct ds as [|d0 ds0]; [congruence|]. set (ds := d0 :: ds0). intros H _.
  destruct (Nat.eqb (List.length ids) (List.length ds)) eqn:L; cbn [negb] in H; [|discriminate]. apply Nat.eqb_eq in L.
  split; [exact L|].
  set (kd := keep_some _) in H.
  pose proof (runs_spec (sort by_id kd) (sort_by_id_sorted kd)) as [R1 R2].
  assert (MF : map fst rows = map fst (runs (sort by_id kd))).
  { revert H. generalize (runs (sort by_id kd)). intros gs. revert rows. induction gs as [|[i xs] gs IH]; intros rows; cbn [mapM].
    - intros [= <-]. reflexivity.
    - cbn [fst snd]. destruct (guarded _ _) as [r|]; cbn [bind]; [|discriminate]. destruct (mapM _ gs) as [ys|]; cbn [bind]; [|discriminate].
      intros [= <-]. cbn. f_equal. apply IH. reflexivity. }
  split; [rewrite MF; exact R1|].
  assert (KD : forall i x, In (i, x) kd <-> In (Some i, x) (combine ids ds)).
  { intros i x. unfold kd. rewrite keep_some_in, in_map_iff. split.
    - intros ([[j|] y] & E & Hy); cbn in E; [|discriminate]. injection E as <- <-. exact Hy.
    - intros Hx. exists (Some i, x). auto. }
  assert (SEL : forall i, sel i (sort by_id kd) = rows_of ids ds i).
  { intros i. rewrite sel_sort. unfold sel, kd, rows_of. generalize (combine ids ds). intros c. induction c as [|[[j|] y] c IH]; cbn; [reflexivity| |exact IH].
    destruct (String.eqb j i); cbn; [f_equal; exact IH|exact IH]. }
  split.
  - intros i. rewrite MF, runs_in, in_map_iff. split.
    + intros ([j x] & <- & Hx). rewrite sort_In in Hx. apply KD in Hx. apply in_combine_l in Hx. exact Hx.
    + intros Hi. apply In_nth_error in Hi. destruct Hi as (k & Hk).
      assert (HL : (k < List.length ids)%nat) by (apply nth_error_Some; congruence).
      destruct (nth_error ds k) as [x|] eqn:X; [|apply nth_error_None in X; lia].
      exists (i, x). split; [reflexivity|]. rewrite sort_In. apply KD. apply (nth_error_In _ k).
      revert Hk X. generalize ids ds. clear. induction k as [|k IH]; intros [|a l] [|b m]; cbn; try discriminate; [congruence|apply IH].
  - intros i r Hr. cbv zeta. apply In_nth_error in Hr. destruct Hr as (k & Hk).
    destruct (nth_error (runs (sort by_id kd)) k) as [[j xs]|] eqn:G.
    2:{ exfalso. apply nth_error_None in G. pose proof (mapM_length _ _ _ H) as ML. assert (k < List.length rows)%nat by (apply nth_error_Some; congruence). lia. }
    destruct (mapM_nth _ _ _ _ _ H G) as (y & Y2 & Y1). rewrite Hk in Y1. injection Y1 as <-. cbn [fst snd] in Y2.
    destruct (guarded _ _) as [r0|] eqn:GU in Y2; cbn [bind] in Y2; [|discriminate]. injection Y2 as -> ->.
    pose proof (R2 i xs (nth_error_In _ _ G)) as XS. rewrite SEL in XS. subst xs. apply guarded_ok in GU. exact GU.
Qed.
End Wrap.
