(* Lemmas for C220-C226. *)
From Coq Require Import QArith ZArith String List Bool Lia Permutation DecimalString DecimalFacts DecimalN.
From Verif Require Import Base ListLemmas ResModel CovModel TimeModel SbdbModel SbdbSpec.
Import ListNotations.
Open Scope string_scope.
Open Scope list_scope.
Open Scope nat_scope.

Lemma same_place a c : same_element a c -> c = place a.
Proof.
  intros [L H]. do 6 (destruct a as [|a]; [do 6 (destruct c as [|c]; [cbn in *; try reflexivity; discriminate H|]); cbn in H; destruct c; discriminate H|]). lia.
Qed.
Lemma place_same a : a < 6 -> same_element a (place a).
Proof. intro L. split; [exact L|]. do 6 (destruct a as [|a]; [reflexivity|]). lia. Qed.
Lemma place_lt a : a < 6 -> place a < 6.
Proof. intro L. do 6 (destruct a as [|a]; [cbn; lia|]). lia. Qed.
Lemma convert_place {A} (s : nat -> nat -> A) z a b : symmetric6 s -> a < 6 -> b < 6 -> convert_covariance s z a b = s (place a) (place b).
Proof.
  intros S La Lb.
  do 6 (destruct a as [|a]; [do 6 (destruct b as [|b]; [cbn; first [reflexivity | apply S; lia]|]); lia|]). lia.
Qed.
Lemma convert_symmetric {A} (s : nat -> nat -> A) z a b : convert_covariance s z a b = convert_covariance s z b a.
Proof.
  do 6 (destruct a as [|a]; [do 6 (destruct b as [|b]; [reflexivity|]); reflexivity|]).
  do 6 (destruct b as [|b]; [reflexivity|]). reflexivity.
Qed.

(* ---- concurrent requests ---- *)
Section Collect.
  Context {A : Type} (fetch : nat -> result A).
  Lemma put_length (i : nat) (x : option A) (l : list (option A)) : i < List.length l -> List.length (firstn i l ++ x :: skipn (Datatypes.S i) l) = List.length l.
  Proof. intro L. rewrite app_length. cbn [List.length]. rewrite firstn_length, skipn_length. lia. Qed.
  Lemma put_nth (i j : nat) (x : option A) (l : list (option A)) : i < List.length l ->
    nth j (firstn i l ++ x :: skipn (Datatypes.S i) l) None = if Nat.eqb j i then x else nth j l None.
  Proof.
    intro L. destruct (Nat.eqb_spec j i) as [->|N].
    - rewrite app_nth2; rewrite firstn_length; [|lia]. replace (i - Nat.min i (List.length l)) with 0 by lia. reflexivity.
    - destruct (Nat.lt_ge_cases j i) as [H|H].
      + rewrite app_nth1 by (rewrite firstn_length; lia). rewrite <- (firstn_skipn i l) at 2. rewrite app_nth1 by (rewrite firstn_length; lia). reflexivity.
      + rewrite app_nth2; rewrite firstn_length; [|lia]. replace (Nat.min i (List.length l)) with i by lia.
        replace (j - i) with (Datatypes.S (j - Datatypes.S i)) by lia. cbn [nth].
        rewrite <- (firstn_skipn (Datatypes.S i) l) at 2. rewrite app_nth2; rewrite firstn_length; [|lia].
        replace (Nat.min (Datatypes.S i) (List.length l)) with (Datatypes.S i) by lia. reflexivity.
  Qed.
  (* every completed index is filled, the rest is as before *)
  Lemma collect_ok (g : nat -> A) order : forall slots, (forall i, In i order -> i < List.length slots /\ fetch i = Ok (g i)) ->
    exists out, collect fetch order slots = Ok out /\ List.length out = List.length slots /\
    forall j, nth j out None = if existsb (Nat.eqb j) order then Some (g j) else nth j slots None.
  Proof.
    induction order as [|i order IH]; intros slots H; cbn [collect].
    - exists slots. repeat split; auto.
    - destruct (H i (or_introl eq_refl)) as [L F]. rewrite F. cbn [bind].
      destruct (IH (firstn i slots ++ Some (g i) :: skipn (Datatypes.S i) slots)) as [out [E [Le N]]].
      { intros k K. rewrite put_length by exact L. apply H. now right. }
      exists out. split; [exact E|]. split; [rewrite Le; now apply put_length|].
      intro j. rewrite N, put_nth by exact L. cbn [existsb].
      destruct (existsb (Nat.eqb j) order); [now rewrite orb_true_r|]. rewrite orb_false_r.
      destruct (Nat.eqb_spec j i) as [->|]; reflexivity.
  Qed.
  Lemma collect_err order1 i order2 e : fetch i = Err e -> (forall j, In j order1 -> exists a, fetch j = Ok a) ->
    forall slots, collect fetch (order1 ++ i :: order2) slots = Err e.
  Proof.
    intros F. induction order1 as [|k order1 IH]; intros H slots; cbn [collect app].
    - now rewrite F.
    - destruct (H k (or_introl eq_refl)) as [a E]. rewrite E. cbn [bind]. apply IH. intros j J. apply H. now right.
  Qed.
End Collect.
Lemma mapM_some {A} (l : list (option A)) (r : list A) : l = map Some r -> mapM (fun s => match s with Some d => Ok d | None => Err RuntimeError end) l = Ok r.
Proof. intros ->. induction r as [|x r IH]; cbn; [reflexivity|]. rewrite IH. reflexivity. Qed.
Lemma payloads_ok workers order fetch ids (g : nat -> dict) : (0 < workers)%Z -> Permutation order (seq 0 (List.length ids)) ->
  (forall i, i < List.length ids -> fetch i (nth i ids "") = Ok (g i)) ->
  get_payloads workers order fetch ids = Ok (map g (seq 0 (List.length ids))).
Proof.
  intros W P F. unfold get_payloads. destruct (Z.leb_spec workers 0); [lia|].
  destruct ids as [|x ids]; [reflexivity|]. set (l := x :: ids) in *.
  assert (In_ : forall i, In i order <-> i < List.length l).
  { intro i. split; intro H0; [apply (Permutation_in _ P), in_seq in H0; lia | apply (Permutation_in _ (Permutation_sym P)), in_seq; lia]. }
  destruct (collect_ok (fun i => fetch i (nth i l "")) g order (repeat None (List.length l))) as [out [E [Le N]]].
  { intros i H0. rewrite repeat_length. split; [now apply In_|]. apply F. now apply In_. }
  rewrite E. cbn [bind]. apply mapM_some. rewrite repeat_length in Le.
  apply (nth_ext _ _ None None); [now rewrite !map_length, seq_length|]. intros j Hj. rewrite Le in Hj.
  rewrite N. assert (X : existsb (Nat.eqb j) order = true). { apply existsb_exists. exists j. split; [now apply In_|apply Nat.eqb_refl]. }
  rewrite X. rewrite map_map. rewrite nth_indep with (d' := Some (g 0)) by (now rewrite map_length, seq_length).
  rewrite (map_nth (fun i => Some (g i)) (seq 0 (List.length l)) 0 j), seq_nth by exact Hj. reflexivity.
Qed.
Lemma payloads_err workers order1 i order2 fetch ids e : (0 < workers)%Z -> Permutation (order1 ++ i :: order2) (seq 0 (List.length ids)) ->
  fetch i (nth i ids "") = Err e -> (forall j, In j order1 -> exists a, fetch j (nth j ids "") = Ok a) ->
  get_payloads workers (order1 ++ i :: order2) fetch ids = Err e.
Proof.
  intros W P F H. unfold get_payloads. destruct (Z.leb_spec workers 0); [lia|].
  destruct ids as [|x ids]. { apply Permutation_length in P. rewrite app_length in P. cbn in P. lia. }
  now rewrite (collect_err (fun i => fetch i (nth i (x :: ids) "")) order1 i order2 e F H).
Qed.

(* ---- retries ---- *)
Lemma loop_transient left attempt server : transient (server attempt) ->
  attempts_loop (Datatypes.S left) attempt server =
  let '(r, n, w) := attempts_loop left (Datatypes.S attempt) server in (r, Datatypes.S n, wait attempt :: w).
Proof.
  intro T. cbn [attempts_loop]. unfold transient in T. destruct (server attempt) as [| |[s|] e|e|j]; try contradiction; try reflexivity.
  replace ((500 <=? s)%Z || (s =? 429)%Z) with true by (symmetry; apply orb_true_iff; rewrite Z.leb_le, Z.eqb_eq; exact T). reflexivity.
Qed.
Lemma loop_prefix server k : forall left attempt, k <= left -> (forall i, i < k -> transient (server (attempt + i))) ->
  attempts_loop left attempt server =
  let '(r, n, w) := attempts_loop (left - k) (attempt + k) server in (r, k + n, map wait (seq attempt k) ++ w).
Proof.
  induction k as [|k IH]; intros left attempt L T.
  - rewrite Nat.sub_0_r, Nat.add_0_r. destruct (attempts_loop left attempt server) as [[r n] w]. reflexivity.
  - destruct left as [|left]; [lia|]. rewrite loop_transient by (generalize (T 0 ltac:(lia)); now rewrite Nat.add_0_r).
    rewrite (IH left (Datatypes.S attempt)); [| lia | intros i Hi; replace (Datatypes.S attempt + i) with (attempt + Datatypes.S i) by lia; apply T; lia].
    replace (Datatypes.S left - Datatypes.S k) with (left - k) by lia. replace (Datatypes.S attempt + k) with (attempt + Datatypes.S k) by lia.
    destruct (attempts_loop (left - k) (attempt + Datatypes.S k) server) as [[r n] w]. reflexivity.
Qed.
Lemma loop_permanent left attempt server e : permanent (server attempt) e -> attempts_loop (Datatypes.S left) attempt server = (Err e, 1, []).
Proof.
  intro T. cbn [attempts_loop]. unfold permanent in T. destruct (server attempt) as [| |[s|] e'|e'|j]; try contradiction; try (subst; reflexivity).
  destruct T as [-> [L N]]. replace ((500 <=? s)%Z || (s =? 429)%Z) with false by (symmetry; apply orb_false_iff; rewrite Z.leb_gt, Z.eqb_neq; lia). reflexivity.
Qed.
Lemma wait_bounds k : (0 < wait k /\ wait k <= 8)%Q.
Proof.
  unfold wait. destruct (Qle_bool _ _) eqn:E.
  - split; [reflexivity|apply Qle_refl].
  - assert (N : ~ (8 <= (1 # 2) * inject_Z (2 ^ Z.of_nat k))%Q) by (rewrite <- Qle_bool_iff, E; discriminate).
    split; [|apply Qlt_le_weak; now apply Qnot_le_lt].
    assert (0 < 2 ^ Z.of_nat k)%Z by (apply Z.pow_pos_nonneg; lia). revert H. generalize (2 ^ Z.of_nat k)%Z. intros z H. unfold Qlt, Qmult, inject_Z. cbn [Qnum Qden]. lia.
Qed.

(* ---- orbit ids ---- *)
Lemma to_uint_not_nil n : N.to_uint n <> Decimal.Nil.
Proof.
  destruct n as [|p]; [discriminate|]. intro K. apply (f_equal N.of_uint) in K. rewrite DecimalN.Unsigned.of_to in K. discriminate.
Qed.
Lemma dec_read n : NilEmpty.uint_of_string (dec n) = Some (N.to_uint n).
Proof.
  unfold dec. generalize (to_uint_not_nil n). destruct (N.to_uint n) as [|d|d|d|d|d|d|d|d|d|d] eqn:E; intro H; [congruence|..]; cbn [NilZero.string_of_uint]; apply NilEmpty.usu.
Qed.
Lemma padded_read k s d : NilEmpty.uint_of_string s = Some d -> exists d', NilEmpty.uint_of_string (zero_text k ++ s)%string = Some d' /\ N.of_uint d' = N.of_uint d.
Proof.
  intro H. induction k as [|k [d' [E V]]]; [now exists d|]. exists (Decimal.D0 d'). split; [|exact V].
  cbn [zero_text String.append NilEmpty.uint_of_string]. rewrite E. reflexivity.
Qed.
Lemma pad5_read i : exists d, NilEmpty.uint_of_string (pad5 i) = Some d /\ N.of_uint d = N.of_nat i.
Proof.
  unfold pad5. destruct (padded_read (5 - String.length (dec (N.of_nat i))) _ _ (dec_read (N.of_nat i))) as [d [E V]].
  exists d. split; [exact E|]. rewrite V. apply DecimalN.Unsigned.of_to.
Qed.
Lemma pad5_inj i j : pad5 i = pad5 j -> i = j.
Proof.
  intro H. destruct (pad5_read i) as [d [E V]], (pad5_read j) as [d' [E' V']]. rewrite H in E. rewrite E in E'. injection E' as ->. assert (N.of_nat i = N.of_nat j) by congruence. lia.
Qed.

(* ---- reading a payload ---- *)
Lemma bind_inv {A B} (m : result A) (f : A -> result B) b : bind m f = Ok b -> exists a, m = Ok a /\ f a = Ok b.
Proof. destruct m as [a|e]; cbn; [exists a; auto|discriminate]. Qed.
Section Read.
  Variable parse : string -> option num.
  Variable text : json -> string.
  Lemma reads_float j x : reads parse j x -> sbdb_float parse j = Ok x.
  Proof. intros [->|[s [-> E]]]; cbn; [reflexivity|now rewrite E]. Qed.
  Lemma reads_not_null j x : reads parse j x -> j <> JNull.
  Proof. intros [->|[s [-> E]]]; discriminate. Qed.
  Lemma reads_cell j x : reads parse j x -> cell_of parse j = Ok x.
  Proof. intros [->|[s [-> E]]]; cbn; [reflexivity|now rewrite E]. Qed.
  Lemma cells_read cells xs : Forall2 (reads parse) cells xs -> mapM (cell_of parse) cells = Ok xs.
  Proof. induction 1 as [|j x cells xs H _ IH]; cbn; [reflexivity|]. rewrite (reads_cell j x H). cbn. now rewrite IH. Qed.
  Lemma rows_read rows m : Forall2 (fun r xs => exists cells, r = JList cells /\ Forall2 (reads parse) cells xs) rows m ->
    mapM (fun r => match r with JList cells => mapM (cell_of parse) cells | _ => Err ValueError end) rows = Ok m.
  Proof.
    induction 1 as [|r xs rows m [cells [-> C]] _ IH]; cbn; [reflexivity|]. rewrite (cells_read _ _ C). cbn. now rewrite IH.
  Qed.
  Lemma matrix_read j m m' : reads_matrix parse j m -> matrix_of parse j = Ok m' -> m' = m.
  Proof.
    intros [rows [-> F]]. unfold matrix_of. rewrite (rows_read _ _ F). cbn [bind]. destruct m as [|r m]; [discriminate|].
    destruct (_ && _); [now intros [= <-]|discriminate].
  Qed.
  Lemma named_element l name el : the_element text l name el -> named text l name = Some el.
  Proof.
    intros (l1 & l2 & -> & N & A). unfold named. rewrite flat_map_app, rev_app_distr. cbn [flat_map]. cbn [rev app].
    set (p := fun o => match get "name" o with JNull => false | j => String.eqb (str_of_json text j) name end).
    assert (F : find p (rev (flat_map (fun j => match j with JObj o => [o] | _ => [] end) l2)) = None).
    { destruct (find p _) eqn:E; [|reflexivity]. apply find_some in E. destruct E as [I P]. apply in_rev, in_flat_map in I. destruct I as [j [Ij Id]].
      destruct j; try contradiction. destruct Id as [->|[]]. unfold p in P. destruct (A d Ij) as [Z|Z].
      - now rewrite Z in P.
      - destruct (get "name" d) eqn:G; [discriminate|..]; apply String.eqb_eq in P; contradiction. }
    assert (G : forall a b, find p a = None -> find p (a ++ b) = find p b).
    { induction a as [|x a IH]; intros b H; [reflexivity|]. cbn in *. destruct (p x); [discriminate|]. now apply IH. }
    rewrite <- app_assoc, G by exact F. cbn [app find]. unfold p at 1. rewrite N. cbn [str_of_json]. now rewrite String.eqb_refl.
  Qed.
  Lemma value_of l name el x : the_element text l name el -> reads parse (get "value" el) x -> element_value parse text l name = Ok x.
  Proof.
    intros E R_. unfold element_value. rewrite (named_element _ _ _ E). pose proof (reads_not_null _ _ R_) as N.
    pose proof (reads_float _ _ R_) as F. destruct (get "value" el); [congruence|..]; exact F.
  Qed.
  Lemma sigma_of l name el x : the_element text l name el -> reads parse (get "sigma" el) x -> element_sigma parse text l name = Ok x.
  Proof. intros E R_. unfold element_sigma. rewrite (named_element _ _ _ E). now rewrite (reads_float _ _ R_). Qed.
  Lemma sigma_none l name el : the_element text l name el -> get "sigma" el = JNull -> element_sigma parse text l name = Ok None.
  Proof. intros E R_. unfold element_sigma. rewrite (named_element _ _ _ E), R_. reflexivity. Qed.

  (* what the reading of a payload says *)
  Lemma payload_inv payload p : read_payload parse text payload = Ok p ->
    exists obj orbit els epoch cov m v tp,
      or_empty (get "object" payload) = Ok obj /\ or_empty (get "orbit" payload) = Ok orbit /\ choose parse text orbit = Ok (JList els, epoch, cov) /\
      (match cov with Some c => m = c | None => exists s, mapM (element_sigma parse text els) ["e"; "q"; "tp"; "om"; "w"; "i"] = Ok s /\ m = sigmas_to_covariance s end) /\
      mapM (element_value parse text els) ["q"; "e"; "i"; "om"; "w"; "tp"] = Ok v /\ jd_row (nth 5 v None) = Ok tp /\
      phys_par parse text payload = Ok (sp_phys p) /\ sp_object p = str_of_json text (get "fullname" obj) /\ sp_epoch p = epoch /\
      sp_coords p = firstn 5 v ++ [Some (mjd tp)] /\ sp_cov p = convert_covariance (entry m) (Some 0%Q).
  Proof.
    unfold read_payload. destruct (negb (has "object" payload)); [discriminate|]. destruct (negb (has "orbit" payload)); [discriminate|].
    intro H. apply bind_inv in H. destruct H as [obj [Eo H]]. apply bind_inv in H. destruct H as [orbit [Eb H]]. apply bind_inv in H. destruct H as [[[els epoch] cov] [Ec H]].
    destruct els as [| | | |l|]; try discriminate. apply bind_inv in H. destruct H as [m [Em H]]. apply bind_inv in H. destruct H as [v [Ev H]].
    apply bind_inv in H. destruct H as [tp [Et H]]. apply bind_inv in H. destruct H as [ph [Ep H]]. injection H as <-.
    exists obj, orbit, l, epoch, cov, m, v, tp. cbn [sp_phys sp_object sp_epoch sp_coords sp_cov].
    repeat (split; [first [assumption | reflexivity | idtac]|]); try reflexivity.
    destruct cov as [c|]; [now injection Em as ->|]. apply bind_inv in Em. destruct Em as [s [Es Em]]. injection Em as <-. now exists s.
  Qed.
  Lemma orbits_inv ids payloads os : orbits_from_payloads parse text ids payloads = Ok os ->
    List.length ids = List.length payloads /\ List.length os = List.length payloads /\
    forall k payload o, nth_error payloads k = Some payload -> nth_error os k = Some o ->
      exists p q, read_payload parse text payload = Ok p /\ sp_epoch p = Some q /\
        o = mksorb (pad5 k) (sp_object p) (from_jd q) "tdb" (sp_coords p) (sp_cov p) (sp_phys p) "SUN" "ecliptic".
  Proof.
    unfold orbits_from_payloads. destruct (Nat.eqb_spec (List.length ids) (List.length payloads)) as [L|]; cbn [negb]; [|discriminate].
    intro H. apply bind_inv in H. destruct H as [pres [Ep H]]. apply bind_inv in H. destruct H as [times [Et H]]. apply (f_equal (fun r => match r with Ok x => x | Err _ => os end)) in H. subst os.
    pose proof (mapM_length _ _ _ Ep) as L1. pose proof (mapM_length _ _ _ Et) as L2.
    split; [exact L|]. split; [rewrite map_length, !combine_length, seq_length; lia|].
    intros k payload o P O. rewrite nth_error_map in O.
    destruct (nth_error pres k) as [p|] eqn:Np; [|exfalso; apply nth_error_None in Np; assert (k < List.length payloads) by (apply nth_error_Some; congruence); lia].
    destruct (nth_error times k) as [t|] eqn:Nt; [|exfalso; apply nth_error_None in Nt; assert (k < List.length pres) by (apply nth_error_Some; congruence); lia].
    assert (Lk : k < List.length pres) by (apply nth_error_Some; congruence).
    assert (C : nth_error (combine (seq 0 (List.length pres)) (combine pres times)) k = Some (k, (p, t))).
    { assert (G : forall A B (a : list A) (b : list B) n x y, nth_error a n = Some x -> nth_error b n = Some y -> nth_error (combine a b) n = Some (x, y)).
      { induction a as [|x0 a IH]; intros [|y0 b] [|n] x y; cbn; try discriminate; [congruence|apply IH]. }
      apply G; [|now apply G]. rewrite nth_error_nth' with (d := 0) by (now rewrite seq_length). now rewrite seq_nth. }
    rewrite C in O. cbn [option_map] in O. injection O as <-.
    destruct (mapM_nth _ _ _ _ _ Ep P) as [p' [E' N']]. rewrite Np in N'. injection N' as <-.
    destruct (mapM_nth _ _ _ _ _ Et Np) as [t' [E'' N']]. rewrite Nt in N'. injection N' as <-.
    unfold jd_row in E''. destruct (sp_epoch p) as [q|] eqn:Q; [|discriminate]. injection E'' as <-. exists p, q. split; [exact E'|]. split; [exact Q|reflexivity].
  Qed.
End Read.
