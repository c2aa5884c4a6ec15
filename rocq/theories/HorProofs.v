From Coq Require Import QArith ZArith NArith Nnat String List Bool Lia Permutation Sorted DecimalString DecimalFacts DecimalN Ascii.
From Verif Require Import Base StrOrder ListLemmas ResModel TimeModel TimeSpec TimeProofs TimeQProofs SchedModel SchedSpec SchedProofs TableModel SbdbModel SbdbProofs HorModel HorSpec.
Import ListNotations.
Open Scope string_scope.
Open Scope list_scope.
Open Scope nat_scope.

(* ---- padded numbers are in order ---- *)
Fixpoint digits (d : Decimal.uint) : nat :=
  match d with
  | Decimal.Nil => 0
  | Decimal.D0 d | Decimal.D1 d | Decimal.D2 d | Decimal.D3 d | Decimal.D4 d | Decimal.D5 d | Decimal.D6 d | Decimal.D7 d | Decimal.D8 d | Decimal.D9 d => Datatypes.S (digits d)
  end.
Fixpoint value (d : Decimal.uint) : N :=
  match d with
  | Decimal.Nil => 0
  | Decimal.D0 d => value d
  | Decimal.D1 d => 1 * 10 ^ N.of_nat (digits d) + value d
  | Decimal.D2 d => 2 * 10 ^ N.of_nat (digits d) + value d
  | Decimal.D3 d => 3 * 10 ^ N.of_nat (digits d) + value d
  | Decimal.D4 d => 4 * 10 ^ N.of_nat (digits d) + value d
  | Decimal.D5 d => 5 * 10 ^ N.of_nat (digits d) + value d
  | Decimal.D6 d => 6 * 10 ^ N.of_nat (digits d) + value d
  | Decimal.D7 d => 7 * 10 ^ N.of_nat (digits d) + value d
  | Decimal.D8 d => 8 * 10 ^ N.of_nat (digits d) + value d
  | Decimal.D9 d => 9 * 10 ^ N.of_nat (digits d) + value d
  end%N.
Lemma pow_succ n : (10 ^ N.of_nat (Datatypes.S n) = 10 * 10 ^ N.of_nat n)%N.
Proof. rewrite Nat2N.inj_succ, N.pow_succ_r'. reflexivity. Qed.
Lemma value_lt d : (value d < 10 ^ N.of_nat (digits d))%N.
Proof. induction d; cbn [value digits]; [reflexivity|..]; rewrite pow_succ; revert IHd; generalize (10 ^ N.of_nat (digits d))%N (value d); intros; lia. Qed.
Lemma acc_value d : forall p, Npos (Pos.of_uint_acc d p) = (Npos p * 10 ^ N.of_nat (digits d) + value d)%N.
Proof.
  induction d; intro p; cbn [Pos.of_uint_acc value digits]; [rewrite N.mul_1_r, N.add_0_r; reflexivity|..]; rewrite IHd, pow_succ; generalize (10 ^ N.of_nat (digits d))%N (value d); intros; lia.
Qed.
Lemma of_uint_value d : N.of_uint d = value d.
Proof.
  unfold N.of_uint. induction d; cbn [Pos.of_uint value]; [reflexivity|exact IHd|..]; now rewrite acc_value.
Qed.
Lemma leb_digits : forall s s' d d', NilEmpty.uint_of_string s = Some d -> NilEmpty.uint_of_string s' = Some d' -> String.length s = String.length s' ->
  digits d = String.length s /\ digits d' = String.length s' /\ ((value d <= value d')%N -> str_leb s s' = true).
Proof.
  assert (C : forall c s d, NilEmpty.uint_of_string (String c s) = Some d -> exists e k, NilEmpty.uint_of_string s = Some e /\ digits d = Datatypes.S (digits e) /\
     N_of_ascii c = (48 + k)%N /\ value d = (k * 10 ^ N.of_nat (digits e) + value e)%N).
  { intros c s d H. cbn [NilEmpty.uint_of_string] in H. destruct (NilEmpty.uint_of_string s) as [e|] eqn:E.
    - destruct c as [[] [] [] [] [] [] [] []]; cbn in H; try discriminate H; injection H as <-; exists e;
        (first [exists 0%N; split; [reflexivity|]; split; [reflexivity|]; split; reflexivity | exists 1%N; split; [reflexivity|]; split; [reflexivity|]; split; reflexivity
              | exists 2%N; split; [reflexivity|]; split; [reflexivity|]; split; reflexivity | exists 3%N; split; [reflexivity|]; split; [reflexivity|]; split; reflexivity
              | exists 4%N; split; [reflexivity|]; split; [reflexivity|]; split; reflexivity | exists 5%N; split; [reflexivity|]; split; [reflexivity|]; split; reflexivity
              | exists 6%N; split; [reflexivity|]; split; [reflexivity|]; split; reflexivity | exists 7%N; split; [reflexivity|]; split; [reflexivity|]; split; reflexivity
              | exists 8%N; split; [reflexivity|]; split; [reflexivity|]; split; reflexivity | exists 9%N; split; [reflexivity|]; split; [reflexivity|]; split; reflexivity]).
    - destruct c as [[] [] [] [] [] [] [] []]; discriminate H. }
  induction s as [|c s IH]; intros [|c' s'] d d' H H' L; try discriminate L.
  - cbn in H, H'. injection H as <-. injection H' as <-. auto.
  - injection L as L. destruct (C c s d H) as (e & k & E & D1 & K & V). destruct (C c' s' d' H') as (e' & k' & E' & D1' & K' & V').
    destruct (IH s' e e' E E' L) as (De & De' & Le). split; [cbn [String.length]; lia|]. split; [cbn [String.length]; lia|]. intro LE.
    cbn [str_leb]. rewrite K, K'. pose proof (value_lt e) as B. pose proof (value_lt e') as B'. rewrite V, V', De, De', L in LE. rewrite De in B. rewrite De' in B'. rewrite L in B.
    destruct (N.ltb_spec (48 + k) (48 + k')) as [|G1]; [reflexivity|]. destruct (N.ltb_spec (48 + k') (48 + k)) as [G2|G2].
    + exfalso. revert B B' LE. generalize (10 ^ N.of_nat (String.length s'))%N (value e) (value e'). intros P a b B B' LE. assert (k' + 1 <= k)%N by lia. nia.
    + apply Le. assert (k = k') by lia. subst. lia.
Qed.
Lemma string_digits d : String.length (NilEmpty.string_of_uint d) = digits d.
Proof. induction d; cbn; auto. Qed.
Lemma dec_length n : (n < 100000)%N -> String.length (dec n) <= 5.
Proof.
  intro H. unfold dec. pose proof (DecimalN.Unsigned.of_to n) as V. rewrite of_uint_value in V.
  assert (U : Decimal.unorm (N.to_uint n) = N.to_uint n). { rewrite <- DecimalN.Unsigned.to_of. now rewrite DecimalN.Unsigned.of_to. }
  assert (G : forall d, N.to_uint n <> Decimal.Nil -> N.to_uint n = d -> String.length (NilZero.string_of_uint d) = digits d).
  { intros d N <-. destruct (N.to_uint n); [congruence|..]; apply string_digits. }
  rewrite (G (N.to_uint n) (to_uint_not_nil n) eq_refl). clear G.
  destruct (le_lt_dec (digits (N.to_uint n)) 5) as [|L]; [assumption|exfalso].
  assert (P : (100000 <= 10 ^ N.of_nat (digits (N.to_uint n) - 1))%N). { change 100000%N with (10 ^ 5)%N. apply N.pow_le_mono_r; lia. }
  destruct (N.to_uint n) as [|d|d|d|d|d|d|d|d|d|d]; cbn [digits value] in *; [lia| |rewrite Nat.sub_succ, Nat.sub_0_r in P; lia..].
  unfold Decimal.unorm in U; cbn [Decimal.nzhead] in U. assert (Z : d = Decimal.Nil); [|subst; cbn in L; lia].
  destruct (Decimal.nzhead d) as [|e|e|e|e|e|e|e|e|e|e] eqn:E; try discriminate U; [congruence|]. exfalso. exact (DecimalFacts.nzhead_nonzero d e E).
Qed.
Lemma pad5_length k : (Z.of_nat k < 100000)%Z -> String.length (pad5 k) = 5.
Proof.
  intro H. unfold pad5. pose proof (dec_length (N.of_nat k) ltac:(lia)) as L.
  assert (Z : forall n s, String.length (zero_text n ++ s)%string = n + String.length s) by (induction n; intro s; cbn; auto). rewrite Z. lia.
Qed.
Lemma pad5_leb i j : i <= j -> (Z.of_nat j < 100000)%Z -> str_leb (pad5 i) (pad5 j) = true.
Proof.
  intros L H. destruct (pad5_read i) as [d [E V]], (pad5_read j) as [d' [E' V']]. rewrite of_uint_value in V, V'.
  apply (leb_digits (pad5 i) (pad5 j) d d' E E'); [rewrite !pad5_length; lia|lia].
Qed.

(* ---- sorting ---- *)
Lemma filter_insert {A} (leb : A -> A -> bool) (p : A -> bool) x l : (forall a b c, leb a b = true -> leb b c = true -> leb a c = true) -> StronglySorted (Base.le leb) l ->
  filter p (insert leb x l) = if p x then insert leb x (filter p l) else filter p l.
Proof.
  intros T S. induction l as [|y ys IH]; cbn [insert]; [cbn; now destruct (p x)|]. inversion S as [|? ? S' F]; subst. destruct (leb x y) eqn:E.
  - cbn [filter]. destruct (p x) eqn:Px; [|reflexivity]. destruct (p y) eqn:Py; [cbn [insert]; now rewrite E|].
    destruct (filter p ys) as [|z zs] eqn:Fz; [reflexivity|]. cbn [insert]. assert (Iz : In z ys) by (apply (filter_In p); rewrite Fz; now left). rewrite Forall_forall in F. unfold Base.le in F. now rewrite (T x y z E (F z Iz)).
  - cbn [filter]. rewrite (IH S'). destruct (p x) eqn:Px, (p y) eqn:Py; try reflexivity. cbn [insert]. now rewrite E.
Qed.
Lemma filter_sorted {A} (leb : A -> A -> bool) (p : A -> bool) l : (forall a b, leb a b = true \/ leb b a = true) -> (forall a b c, leb a b = true -> leb b c = true -> leb a c = true) ->
  filter p (sort leb l) = sort leb (filter p l).
Proof.
  intros To T. induction l as [|x l IH]; [reflexivity|]. cbn [sort filter]. rewrite filter_insert; [|exact T|now apply sort_sorted]. rewrite IH. now destruct (p x).
Qed.
(* lists in the order of a key are equal if they agree on each value of the key *)
Lemma by_key {A B} (key : A -> B) (eqb : B -> B -> bool) (leb : B -> B -> bool) : (forall a b, eqb a b = true <-> a = b) -> (forall a b, leb a b = true -> leb b a = true -> a = b) ->
  forall l m : list A, StronglySorted (fun a b => leb (key a) (key b) = true) l -> StronglySorted (fun a b => leb (key a) (key b) = true) m ->
  (forall t, filter (fun a => eqb (key a) t) l = filter (fun a => eqb (key a) t) m) -> l = m.
Proof.
  intros Eq Anti. induction l as [|a l IH]; intros m Sl Sm F.
  - destruct m as [|b m]; [reflexivity|]. specialize (F (key b)). cbn in F. assert (X : eqb (key b) (key b) = true) by now apply Eq. rewrite X in F. discriminate.
  - destruct m as [|b m]. { specialize (F (key a)). cbn in F. assert (X : eqb (key a) (key a) = true) by now apply Eq. rewrite X in F. discriminate. }
    inversion Sl as [|? ? Sl' Fl]; subst. inversion Sm as [|? ? Sm' Fm]; subst. rewrite Forall_forall in Fl, Fm.
    assert (Ka : eqb (key a) (key a) = true) by now apply Eq. assert (Kb : eqb (key b) (key b) = true) by now apply Eq.
    assert (K : key a = key b).
    { destruct (eqb (key b) (key a)) eqn:E; [symmetry; now apply Eq|]. destruct (eqb (key a) (key b)) eqn:E'; [now apply Eq|]. apply Anti.
      - pose proof (F (key b)) as Fb. cbn [filter] in Fb. rewrite Kb, E' in Fb. assert (I : In b (filter (fun x => eqb (key x) (key b)) l)) by (rewrite Fb; now left). apply filter_In in I. now apply Fl.
      - pose proof (F (key a)) as Fa. cbn [filter] in Fa. rewrite Ka, E in Fa. assert (I : In a (filter (fun x => eqb (key x) (key a)) m)) by (rewrite <- Fa; now left). apply filter_In in I. now apply Fm. }
    pose proof (F (key a)) as Fa. cbn [filter] in Fa. rewrite Ka in Fa. rewrite K in Fa. rewrite Kb in Fa. injection Fa as -> _. f_equal. apply IH; auto.
    intro t. specialize (F t). cbn [filter] in F. destruct (eqb (key b) t); [now injection F|exact F].
Qed.

Definition row_eqb (a b : row) : bool := (days a =? days b)%Z && (nanos a =? nanos b)%Z.
Lemma row_eqb_eq a b : row_eqb a b = true <-> a = b.
Proof. unfold row_eqb. rewrite andb_true_iff, !Z.eqb_eq. destruct a, b; cbn. split; [intros [-> ->]; reflexivity|intros [= -> ->]; auto]. Qed.
Lemma row_leb_total a b : row_leb a b = true \/ row_leb b a = true.
Proof. unfold row_leb. rewrite !orb_true_iff, !andb_true_iff, !Z.ltb_lt, !Z.eqb_eq, !Z.leb_le. lia. Qed.
Lemma row_leb_trans a b c : row_leb a b = true -> row_leb b c = true -> row_leb a c = true.
Proof. unfold row_leb. rewrite !orb_true_iff, !andb_true_iff, !Z.ltb_lt, !Z.eqb_eq, !Z.leb_le. lia. Qed.
Lemma row_leb_antisym a b : row_leb a b = true -> row_leb b a = true -> a = b.
Proof. unfold row_leb. rewrite !orb_true_iff, !andb_true_iff, !Z.ltb_lt, !Z.eqb_eq, !Z.leb_le. destruct a, b; cbn. intros. f_equal; lia. Qed.
Lemma frame_leb_total a b : frame_leb a b = true \/ frame_leb b a = true.
Proof.
  unfold frame_leb. rewrite (String.eqb_sym (fst b)). destruct (String.eqb (fst a) (fst b)); [|apply str_leb_total]. rewrite !Qle_bool_iff. destruct (Qlt_le_dec (h_jd (snd a)) (h_jd (snd b))) as [L|L]; [left; now apply Qlt_le_weak|now right].
Qed.
Lemma frame_leb_trans a b c : frame_leb a b = true -> frame_leb b c = true -> frame_leb a c = true.
Proof.
  unfold frame_leb. destruct (String.eqb_spec (fst a) (fst b)) as [E|E], (String.eqb_spec (fst b) (fst c)) as [E'|E']; intros H H'.
  - rewrite E, E', String.eqb_refl. rewrite Qle_bool_iff in *. eapply Qle_trans; eassumption.
  - destruct (String.eqb_spec (fst a) (fst c)) as [X|X]; [congruence|]. now rewrite E.
  - destruct (String.eqb_spec (fst a) (fst c)) as [X|X]; [congruence|]. now rewrite <- E'.
  - destruct (String.eqb_spec (fst a) (fst c)) as [X|X]; [|exact (str_leb_trans _ _ _ H H')]. exfalso. apply E. apply str_leb_antisym; [exact H|now rewrite X].
Qed.

(* ---- chunks ---- *)
Lemma perm_flat_app {A B} (f g : A -> list B) l : Permutation (flat_map (fun x => f x ++ g x) l) (flat_map f l ++ flat_map g l).
Proof.
  induction l as [|x l IH]; cbn; [constructor|]. rewrite IH. rewrite <- !app_assoc. apply Permutation_app_head. rewrite !app_assoc. apply Permutation_app_tail. apply Permutation_app_comm.
Qed.
Lemma perm_prod {A B C} (F : A -> B -> C) ps : forall ts, Permutation (flat_map (fun p => map (F p) ts) ps) (flat_map (fun t => map (fun p => F p t) ps) ts).
Proof.
  induction ts as [|t ts IH]; cbn [flat_map]; [induction ps; cbn; auto|]. rewrite <- IH. clear IH.
  rewrite (flat_map_ext _ (fun p => [F p t] ++ map (F p) ts)) by reflexivity. rewrite perm_flat_app. apply Permutation_app_tail. induction ps; cbn; auto.
Qed.
Lemma perm_flat_map {A B} (f g : A -> list B) l : (forall x, In x l -> Permutation (f x) (g x)) -> Permutation (flat_map f l) (flat_map g l).
Proof. induction l as [|x l IH]; intro H; cbn; [constructor|]. apply Permutation_app; [apply H; now left|apply IH; intros; apply H; now right]. Qed.
Lemma perm_flat_arg {A B} (f : A -> list B) l m : Permutation l m -> Permutation (flat_map f l) (flat_map f m).
Proof. intro P. induction P; cbn; [constructor|now apply Permutation_app_head|rewrite !app_assoc; apply Permutation_app_tail, Permutation_app_comm|etransitivity; eassumption]. Qed.

Section Query.
  Variable vectors elements : string -> string -> list Q -> list hrow.
  Variable to_tdb : row -> row.
  Variable kind location : string.
  Variable name : string -> string.
  Variable cells : string -> Q -> string -> num.
  Hypothesis H_ans : (kind = "cartesian" /\ answers (vectors location) name cells) \/
                     ((kind = "keplerian" \/ kind = "cometary" /\ forall id q, exists x, cells id q "Tp_jd" = Some x) /\ answers_mjd (elements location) name cells).

  Definition entry_of (p : nat * string) (t : row) : string * hrow := (pad5 (fst p), mkh (jd (to_tdb t)) (name (snd p)) (cells (snd p) (jd (to_tdb t)))).
  Definition make (q : string * hrow) : horb :=
    if String.eqb kind "cartesian" then cartesian_row q else if String.eqb kind "keplerian" then keplerian_row q else
    match cometary_row q with Ok o => o | Err _ => keplerian_row q end.
  Definition frame_rows (ids : list string) (times : list row) : list (string * hrow) := flat_map (fun p => map (entry_of p) times) (numbered_ids ids).

  Lemma tables_rows (ask : string -> list Q -> list hrow) (f : row -> Q) ids times :
    (forall id, ask id (map f times) = map (fun t => mkh (jd (to_tdb t)) (name id) (cells id (jd (to_tdb t)))) times) ->
    tables (fun id => ask id (map f times)) ids = frame_rows ids times.
  Proof.
    intro H. unfold tables, frame_rows, numbered_ids. rewrite flat_map_concat_map. f_equal. apply map_ext. intro p. rewrite H, map_map. reflexivity.
  Qed.
  Lemma chunk_ok ids times : ids <> [] -> chunk_orbits vectors elements to_tdb kind location ids times = Ok (map make (sort frame_leb (frame_rows ids times))).
  Proof.
    intro N. unfold chunk_orbits, get_frame.
    destruct ids as [|i0 ids']; [congruence|]. remember (i0 :: ids') as ids eqn:Ei.
    destruct H_ans as [[K A]|[[K|[K X]] A]].
    - unfold make. rewrite K. cbn [String.eqb Ascii.eqb eqb]. cbn [bind]. f_equal. f_equal. f_equal. apply tables_rows. intro id. rewrite A, map_map. reflexivity.
    - unfold make. rewrite K. cbn [bind]. rewrite (tables_rows (elements location) (fun t => mjd (to_tdb t))); [reflexivity|]. intro id. rewrite A, map_map. reflexivity.
    - unfold make. rewrite K. cbn [bind]. rewrite (tables_rows (elements location) (fun t => mjd (to_tdb t))); [|intro id; rewrite A, map_map; reflexivity].
      change (String.eqb "cometary" "cartesian") with false. change (String.eqb "cometary" "keplerian") with false. change (String.eqb "cometary" "cometary") with true. cbv iota. cbn [bind].
      assert (Y : forall q, In q (sort frame_leb (frame_rows ids times)) -> exists o, cometary_row q = Ok o).
      { intros q I. apply sort_In in I. unfold frame_rows in I. apply in_flat_map in I. destruct I as (p & _ & I). apply in_map_iff in I. destruct I as (t & <- & _).
        unfold cometary_row, entry_of. cbn [snd fst h_cell]. destruct (X (snd p) (jd (to_tdb t))) as [x ->]. cbn. eauto. }
      clear - Y. induction (sort frame_leb (frame_rows ids times)) as [|q l IH]; [reflexivity|]. cbn [mapM map]. destruct (Y q (or_introl eq_refl)) as [o E]. rewrite E. cbn [bind]. rewrite IH; [reflexivity|]. intros; apply Y; now right.
  Qed.
  Lemma make_row p t : normal (to_tdb t) -> row_for kind name cells (fst p) (snd p) (to_tdb t) (make (entry_of p t)) /\ ho_time (make (entry_of p t)) = to_tdb t.
  Proof.
    intro N. assert (J : from_jd (jd (to_tdb t)) = to_tdb t) by (apply from_jd_jd; exact N). unfold make, entry_of.
    destruct H_ans as [[K _]|[[K|[K X]] _]]; rewrite K; cbn [String.eqb Ascii.eqb eqb].
    - unfold cartesian_row, row_for. cbn [fst snd h_jd h_target h_cell ho_id ho_object ho_time ho_scale ho_frame ho_coords]. split; [|exact J]. repeat (split; [auto|]). constructor.
    - unfold keplerian_row, row_for. cbn [fst snd h_jd h_target h_cell ho_id ho_object ho_time ho_scale ho_frame ho_coords]. split; [|exact J]. repeat (split; [auto|]). constructor.
    - unfold cometary_row, row_for. cbn [fst snd h_jd h_target h_cell]. destruct (X (snd p) (jd (to_tdb t))) as [x E]. rewrite E. cbn [jd_row bind ho_id ho_object ho_time ho_scale ho_frame ho_coords]. split; [|exact J]. repeat (split; [auto|]). now apply com.
  Qed.
  Lemma chunks_ok ids : ids <> [] -> forall chunks total, all_chunks vectors elements to_tdb kind location ids chunks total =
    Ok (flat_map (fun c => map make (sort frame_leb (frame_rows ids c))) (rev chunks) ++ total).
  Proof.
    intro N. induction chunks as [|c chunks IH]; intro total; [reflexivity|]. cbn [all_chunks]. rewrite (chunk_ok ids c N). cbn [bind]. rewrite IH. cbn [rev]. rewrite flat_map_app. cbn [flat_map]. rewrite app_nil_r, <- app_assoc. reflexivity.
  Qed.
  Lemma query_ok ids times : ids <> [] -> times <> [] -> exists chunks, concat chunks = sort row_leb times /\
    query_horizons vectors elements to_tdb kind location ids times =
    Ok (sort (fun a b => row_leb (ho_time a) (ho_time b)) (flat_map (fun c => map make (sort frame_leb (frame_rows ids c))) (rev chunks))).
  Proof.
    intros N T. destruct (tiles_ok (sort row_leb times) 50 ltac:(lia)) as (chunks & E & C & _). exists chunks. split; [exact C|].
    unfold query_horizons. destruct times as [|t0 ts]; [congruence|]. rewrite E. cbn [bind]. rewrite chunks_ok by exact N. cbn [bind]. now rewrite app_nil_r.
  Qed.
  Lemma rows_perm ids chunks : Permutation (flat_map (fun c => map make (sort frame_leb (frame_rows ids c))) (rev chunks))
    (flat_map (fun p => map (fun t => make (entry_of p t)) (concat chunks)) (numbered_ids ids)).
  Proof.
    transitivity (flat_map (fun c => map make (sort frame_leb (frame_rows ids c))) chunks). { apply perm_flat_arg. symmetry. apply Permutation_rev. }
    transitivity (flat_map (fun c => flat_map (fun p => map (fun t => make (entry_of p t)) c) (numbered_ids ids)) chunks).
    { apply perm_flat_map. intros c _. rewrite <- (Permutation_map make (sort_perm frame_leb (frame_rows ids c))). unfold frame_rows. rewrite flat_map_concat_map, concat_map, map_map, <- flat_map_concat_map.
      apply perm_flat_map. intros p _. rewrite map_map. reflexivity. }
    induction chunks as [|c chunks IH]; cbn [flat_map concat]. { induction (numbered_ids ids); cbn; auto. }
    rewrite IH. rewrite (flat_map_ext (fun p => map (fun t => make (entry_of p t)) (c ++ concat chunks)) (fun p => map (fun t => make (entry_of p t)) c ++ map (fun t => make (entry_of p t)) (concat chunks))) by (intro; apply map_app).
    symmetry. apply perm_flat_app.
  Qed.
  (* the rows of one epoch *)
  Lemma map_filter_time ids c t : NoDup (map to_tdb c) -> (forall x, In x c -> normal (to_tdb x)) -> (Z.of_nat (List.length ids) <= 100000)%Z ->
    filter (fun o => row_eqb (ho_time o) t) (map make (sort frame_leb (frame_rows ids c))) =
    flat_map (fun x => if row_eqb (to_tdb x) t then map (fun p => make (entry_of p x)) (numbered_ids ids) else []) c.
  Proof.
    intros ND Nm Ln.
    assert (FM : forall (f : string * hrow -> horb) (g : horb -> bool) l, filter g (map f l) = map f (filter (fun q => g (f q)) l)).
    { intros f g. induction l as [|x l IH]; cbn; [reflexivity|]. destruct (g (f x)); cbn; now rewrite IH. }
    rewrite FM, filter_sorted by (apply frame_leb_total || apply frame_leb_trans).
    assert (FF : forall P, filter (fun q => row_eqb (ho_time (make q)) t) (flat_map (fun p => map (entry_of p) c) P) = flat_map (fun p => map (entry_of p) (filter (fun x => row_eqb (to_tdb x) t) c)) P).
    { induction P as [|p P IH]; cbn [flat_map]; [reflexivity|]. rewrite filter_app, IH. f_equal. clear - Nm H_ans. induction c as [|x c IH]; cbn [map filter]; [reflexivity|].
      rewrite (proj2 (make_row p x (Nm x (or_introl eq_refl)))). destruct (row_eqb (to_tdb x) t); cbn [map]; rewrite IH; auto; intros; apply Nm; now right. }
    unfold frame_rows. rewrite FF.
    assert (One : filter (fun x => row_eqb (to_tdb x) t) c = [] \/ exists x, filter (fun x => row_eqb (to_tdb x) t) c = [x]).
    { clear - ND. induction c as [|x c IH]; [now left|]. cbn [map filter] in *. inversion ND; subst. destruct (row_eqb (to_tdb x) t) eqn:E; [|now apply IH]. right. exists x. f_equal.
      apply row_eqb_eq in E. destruct (filter (fun x => row_eqb (to_tdb x) t) c) as [|y l] eqn:F; [reflexivity|]. exfalso. apply H1. assert (I : In y (filter (fun x => row_eqb (to_tdb x) t) c)) by (rewrite F; now left).
      apply filter_In in I. destruct I as [I E']. apply row_eqb_eq in E'. rewrite E, <- E'. now apply in_map. }
    assert (RHS : flat_map (fun x => if row_eqb (to_tdb x) t then map (fun p => make (entry_of p x)) (numbered_ids ids) else []) c =
                  flat_map (fun x => map (fun p => make (entry_of p x)) (numbered_ids ids)) (filter (fun x => row_eqb (to_tdb x) t) c)).
    { clear. induction c as [|x c IH]; [reflexivity|]. cbn [flat_map filter]. destruct (row_eqb (to_tdb x) t); cbn [flat_map app]; now rewrite IH. }
    rewrite RHS. destruct One as [->|[x ->]]; cbn [map flat_map].
    - assert (Z : flat_map (fun _ : nat * string => @nil (string * hrow)) (numbered_ids ids) = []) by (clear; induction (numbered_ids ids) as [|? ? IHx]; [reflexivity|exact IHx]). now rewrite Z.
    - rewrite app_nil_r. assert (Z : flat_map (fun p => [entry_of p x]) (numbered_ids ids) = map (fun p => entry_of p x) (numbered_ids ids)) by (clear; induction (numbered_ids ids) as [|? ? IHx]; cbn; [auto|now rewrite IHx]). rewrite Z.
      rewrite sort_sorted_id; [now rewrite map_map|]. unfold numbered_ids.
      assert (G : forall (l : list string) k, (Z.of_nat k + Z.of_nat (List.length l) <= 100000)%Z -> StronglySorted (Base.le frame_leb) (map (fun p => entry_of p x) (combine (seq k (List.length l)) l))).
      { induction l as [|i l IH]; intros k Lk; cbn [List.length seq combine map]; [constructor|]. cbn [List.length] in Lk. constructor; [apply IH; lia|]. apply Forall_forall. intros q I. apply in_map_iff in I. destruct I as ((k', i') & <- & I).
        apply in_combine_l in I. apply in_seq in I. unfold Base.le, frame_leb, entry_of. cbn [fst snd h_jd]. destruct (String.eqb_spec (pad5 k) (pad5 k')) as [E|_]; [apply pad5_inj in E; lia|]. apply pad5_leb; lia. }
      apply (G ids 0). lia.
  Qed.
  Lemma query_exact ids times : ids <> [] -> times <> [] -> (forall t, In t times -> normal (to_tdb t)) -> NoDup (map to_tdb times) -> (Z.of_nat (List.length ids) <= 100000)%Z ->
    query_horizons vectors elements to_tdb kind location ids times =
    Ok (flat_map (fun t => map (fun p => make (entry_of p t)) (numbered_ids ids)) (sort (fun a b => row_leb (to_tdb a) (to_tdb b)) times)).
  Proof.
    intros N T Nm ND Ln. destruct (query_ok ids times N T) as (chunks & C & ->). f_equal.
    assert (Pm : Permutation times (concat chunks)) by (rewrite C; apply sort_perm).
    assert (Nc : forall t, In t (concat chunks) -> normal (to_tdb t)) by (intros t I; apply Nm; eapply Permutation_in; [symmetry; exact Pm|exact I]).
    assert (NDc : NoDup (map to_tdb (concat chunks))) by (eapply Permutation_NoDup; [apply Permutation_map, Pm|exact ND]).
    set (st := sort (fun a b => row_leb (to_tdb a) (to_tdb b)) times). assert (Ps : Permutation times st) by apply sort_perm.
    assert (Ns : forall t, In t st -> normal (to_tdb t)) by (intros t I; apply Nm; eapply Permutation_in; [symmetry; exact Ps|exact I]).
    assert (Ss : StronglySorted (fun a b => row_leb (to_tdb a) (to_tdb b) = true) st) by (apply sort_sorted; [intros; apply row_leb_total|intros a b c; apply row_leb_trans]).
    apply (by_key ho_time row_eqb row_leb row_eqb_eq row_leb_antisym).
    - apply (sort_sorted (fun a b => row_leb (ho_time a) (ho_time b))); [intros; apply row_leb_total|intros a b c; apply row_leb_trans].
    - clearbody st. clear Ps. induction st as [|t st IH]; cbn [flat_map]; [constructor|]. inversion Ss as [|? ? Ss' F]; subst.
      assert (H1 : forall o, In o (map (fun p => make (entry_of p t)) (numbered_ids ids)) -> ho_time o = to_tdb t) by (intros o I; apply in_map_iff in I; destruct I as (p & <- & _); apply make_row, Ns; now left).
      assert (H2 : forall o, In o (flat_map (fun t => map (fun p => make (entry_of p t)) (numbered_ids ids)) st) -> exists t', In t' st /\ ho_time o = to_tdb t').
      { intros o I. apply in_flat_map in I. destruct I as (t' & It & I). apply in_map_iff in I. destruct I as (p & <- & _). exists t'. split; [exact It|]. apply make_row, Ns. now right. }
      assert (IH' := IH (fun t I => Ns t (or_intror I)) Ss'). clear IH. rewrite Forall_forall in F. induction (map (fun p => make (entry_of p t)) (numbered_ids ids)) as [|o l IHl]; [exact IH'|].
      cbn [app]. constructor; [apply IHl; intros; apply H1; now right|]. apply Forall_forall. intros o' I. rewrite (H1 o (or_introl eq_refl)). apply in_app_or in I. destruct I as [I|I].
      + rewrite (H1 o' (or_intror I)). destruct (row_leb_total (to_tdb t) (to_tdb t)); auto.
      + destruct (H2 o' I) as (t' & It & ->). now apply F.
    - intro t. rewrite sort_filter. 2:{ intros x y E1 E2. apply row_eqb_eq in E1, E2. rewrite E1, E2. destruct (row_leb_total t t); auto. }
      assert (R1 : filter (fun o => row_eqb (ho_time o) t) (flat_map (fun t => map (fun p => make (entry_of p t)) (numbered_ids ids)) st) =
                   flat_map (fun x => if row_eqb (to_tdb x) t then map (fun p => make (entry_of p x)) (numbered_ids ids) else []) st).
      { clear - Ns H_ans. induction st as [|x st IH]; [reflexivity|]. cbn [flat_map]. rewrite filter_app, IH by (intros; apply Ns; now right). f_equal.
        assert (G : forall P, filter (fun o => row_eqb (ho_time o) t) (map (fun p => make (entry_of p x)) P) = if row_eqb (to_tdb x) t then map (fun p => make (entry_of p x)) P else []).
        { induction P as [|p P IHP]; cbn; [now destruct (row_eqb (to_tdb x) t)|]. rewrite (proj2 (make_row p x (Ns x (or_introl eq_refl)))), IHP. now destruct (row_eqb (to_tdb x) t). }
        apply G. }
      rewrite R1.
      assert (L1 : filter (fun o => row_eqb (ho_time o) t) (flat_map (fun c => map make (sort frame_leb (frame_rows ids c))) (rev chunks)) =
                   flat_map (fun x => if row_eqb (to_tdb x) t then map (fun p => make (entry_of p x)) (numbered_ids ids) else []) (concat (rev chunks))).
      { assert (X : forall cs, (forall x, In x (concat cs) -> normal (to_tdb x)) -> NoDup (map to_tdb (concat cs)) -> filter (fun o => row_eqb (ho_time o) t) (flat_map (fun c => map make (sort frame_leb (frame_rows ids c))) cs) =
                   flat_map (fun x => if row_eqb (to_tdb x) t then map (fun p => make (entry_of p x)) (numbered_ids ids) else []) (concat cs)).
        { induction cs as [|c cs IH]; intros Nx NDx; [reflexivity|]. cbn [flat_map concat] in *. rewrite filter_app, flat_map_app. rewrite map_app in NDx.
          assert (NDs : NoDup (map to_tdb c) /\ NoDup (map to_tdb (concat cs))). { clear - NDx. induction (map to_tdb c) as [|y l IHl]; [split; [constructor|exact NDx]|]. cbn in NDx. inversion NDx; subst. destruct (IHl H2). split; [constructor; [intro; apply H1, in_or_app; now left|assumption]|assumption]. }
          f_equal; [apply map_filter_time; [apply NDs|intros; apply Nx, in_or_app; now left|exact Ln]|apply IH; [intros; apply Nx, in_or_app; now right|apply NDs]]. }
        assert (Pr : Permutation (concat chunks) (concat (rev chunks))).
        { rewrite <- !flat_map_id_concat || idtac. clear. induction chunks as [|c cs IH]; [constructor|]. cbn [rev concat]. rewrite concat_app. cbn. rewrite app_nil_r, <- IH. apply Permutation_app_comm. }
        apply X; [intros x I; apply Nc; eapply Permutation_in; [symmetry; exact Pr|exact I]|eapply Permutation_NoDup; [apply Permutation_map, Pr|exact NDc]]. }
      rewrite L1.
      assert (Un : forall l m, NoDup (map to_tdb l) -> Permutation l m -> flat_map (fun x => if row_eqb (to_tdb x) t then map (fun p => make (entry_of p x)) (numbered_ids ids) else []) l = flat_map (fun x => if row_eqb (to_tdb x) t then map (fun p => make (entry_of p x)) (numbered_ids ids) else []) m).
      { intros l m NDl P. induction P as [|x l m P IH|x y l|l m k P1 IH1 P2 IH2]; [reflexivity| | |].
        - cbn [flat_map]. cbn in NDl. inversion NDl; subst. now rewrite IH.
        - cbn [flat_map]. cbn in NDl. inversion NDl; subst. destruct (row_eqb (to_tdb x) t) eqn:E1, (row_eqb (to_tdb y) t) eqn:E2; try reflexivity. exfalso. apply H1. apply row_eqb_eq in E1, E2. left. congruence.
        - rewrite IH1 by exact NDl. apply IH2. eapply Permutation_NoDup; [apply Permutation_map, P1|exact NDl]. }
      apply Un.
      + eapply Permutation_NoDup; [|exact NDc]. apply Permutation_map. clear. induction chunks as [|c cs IH]; [constructor|]. cbn [rev concat]. rewrite concat_app. cbn. rewrite app_nil_r, <- IH. apply Permutation_app_comm.
      + transitivity (concat chunks); [|transitivity times; [symmetry; exact Pm|exact Ps]]. symmetry. clear. induction chunks as [|c cs IH]; [constructor|]. cbn [rev concat]. rewrite concat_app. cbn. rewrite app_nil_r, <- IH. apply Permutation_app_comm.
  Qed.
End Query.
