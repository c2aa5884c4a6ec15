(* Properties C278-C282: magnitudes and phase angles of propagated ephemerides. *)
From Coq Require Import QArith ZArith String Ascii List Bool Lia.
From Verif Require Import Base ListLemmas AttModel AttSpec AttProofs.
Import ListNotations.
Open Scope string_scope.
Open Scope list_scope.
Open Scope nat_scope.

Lemma Forall2_length : forall A B (R : A -> B -> Prop) a b, Forall2 R a b -> List.length a = List.length b.
Proof. intros A B R a b F. induction F; cbn; congruence. Qed.
Lemma nth_combine : forall A B (a : list A) (b : list B) i x y, nth_error a i = Some x -> nth_error b i = Some y -> nth_error (combine a b) i = Some (x, y).
Proof. induction a as [|u a IH]; intros [|v b] [|i] x y H G; cbn in *; try discriminate; [congruence|apply IH; assumption]. Qed.
Lemma nth_both : forall A B (a : list A) (b : list B) i x, List.length a = List.length b -> nth_error a i = Some x -> exists y, nth_error b i = Some y.
Proof. intros A B a b i x L H. destruct (nth_error b i) as [y|] eqn:E; [exists y; reflexivity|]. apply nth_error_None in E. assert (i < List.length a) by (apply nth_error_Some; congruence). lia. Qed.
Lemma nth_forall2 : forall A B (R : A -> B -> Prop) a b i x y, Forall2 R a b -> nth_error a i = Some x -> nth_error b i = Some y -> R x y.
Proof. intros A B R a b i x y F. revert i. induction F as [|u v a b H F IH]; intros [|i] X Y; cbn in *; try discriminate; [congruence|exact (IH i X Y)]. Qed.
Lemma mapM_single : forall A B (f : A -> result B) l, (forall x e, In x l -> f x = Err e -> e = ValueError) -> forall x, In x l -> f x = Err ValueError -> mapM f l = Err ValueError.
Proof.
  intros A B f. induction l as [|y l IH]; intros V x I H; [destruct I|]. cbn. destruct (f y) as [z|e] eqn:F; cbn [bind].
  - destruct I as [->|I]; [congruence|]. rewrite (IH (fun u e Hu => V u e (or_intror Hu)) x I H). reflexivity.
  - rewrite (V y e (or_introl eq_refl) F). reflexivity.
Qed.

Section Props.
  Context {P N : Type}.
  Variable rescale : string -> string -> Z * Z -> Z * Z.
  Variable ok : P -> P -> bool.
  Variable magnitude : Q -> P -> P -> Q -> option N.
  Variable phase : P -> P -> option N.
  Notation attach := (attach rescale ok magnitude phase).
  Notation okey := (fun o : @obsr P => key (o_code o) (o_days o) (o_nanos o)).
  Notation ekey := (fun e : @erow P N => key (e_code e) (e_days e) (e_nanos e)).
  Notation idle := (fun e : @erow P N => match e_pos e with None => true | _ => false end).
  Notation given := (fun h : option (Q * Q) => match h with Some _ => true | None => false end).
  Notation cell wm wa obs := (fun q : @erow P N * (option (Q * Q) * nat) => let '(e, (h, i)) := q in
     match pair_of ok e (nth_error obs i) with Some g => Ok (with_columns magnitude phase wm wa e h g) | None => Err ValueError end).

  Lemma scale_same : forall a b (l : list (@obsr P)), map (in_scale rescale a b) l = map (at_scale rescale a b) l.
  Proof.
    intros a b l. apply map_ext. intros o. unfold in_scale, at_scale. destruct (string_dec a b) as [->|Z].
    - rewrite String.eqb_refl. destruct o; reflexivity.
    - destruct (String.eqb_spec b a); [congruence|]. destruct (rescale a b _); reflexivity.
  Qed.
  Lemma key_observes : forall o e, okey o = ekey e <-> observes o e.
  Proof. intros o e. split; [intros H; apply key_inj in H; exact H|]. intros [A [B C]]. rewrite A, B, C. reflexivity. Qed.
  Lemma keys_apart : forall obs, NoDup (map okey obs) <-> apart obs.
  Proof.
    intros obs. rewrite NoDup_nth_error. split.
    - intros H i j a b A B E1 E2 E3. apply H; [rewrite map_length; apply nth_error_Some; congruence|]. rewrite !nth_error_map, A, B. cbn. rewrite E1, E2, E3. reflexivity.
    - intros H i j L E. rewrite !nth_error_map in E. rewrite map_length in L. destruct (nth_error obs i) as [a|] eqn:A; [|apply nth_error_None in A; lia].
      destruct (nth_error obs j) as [b|] eqn:B; [|discriminate]. cbn in E. injection E as E. apply key_inj in E as [E1 [E2 E3]]. exact (H i j a b A B E1 E2 E3).
  Qed.
  Lemma pair_some : forall (e : @erow P N) o g, pair_of ok e (Some o) = Some g <-> e_pos e = Some (fst g) /\ o_pos o = Some (snd g) /\ ok (fst g) (snd g) = true.
  Proof.
    intros e o [p q]. unfold pair_of. cbn. destruct (e_pos e) as [p'|]; [|split; [discriminate|intros [Z _]; discriminate]]. destruct (o_pos o) as [q'|]; [|split; [discriminate|intros [_ [Z _]]; discriminate]].
    destruct (ok p' q') eqn:K.
    - split; [intros H; injection H as <- <-; repeat split; assumption|]. intros [A [B C]]. congruence.
    - split; [discriminate|]. intros [A [B C]]. congruence.
  Qed.
  Lemma lively_idle : forall eph : list (@erow P N), lively eph <-> eph <> [] /\ forallb idle eph = false.
  Proof.
    intros eph. split.
    - intros [e [I H]]. split; [intros ->; exact I|]. apply not_true_iff_false. intros F. rewrite forallb_forall in F. specialize (F e I). destruct (e_pos e); [discriminate|contradiction].
    - intros [_ F]. induction eph as [|e eph IH]; [discriminate|]. cbn in F. destruct (e_pos e) eqn:E.
      + exists e. split; [left; reflexivity|congruence].
      + destruct IH as [x [I H]]; [exact F|]. exists x. split; [right; exact I|exact H].
  Qed.
  (* the rows of a computed table *)
  Lemma cells_ok : forall wm wa obs eph hg idx out, List.length hg = List.length eph -> Forall2 (fun k i => nth_error (map okey obs) i = Some k) (map ekey eph) idx ->
    mapM (cell wm wa obs) (combine eph (combine hg idx)) = Ok out ->
    List.length out = List.length eph /\ forall i e, nth_error eph i = Some e -> exists h o p q, nth_error hg i = Some h /\ In o obs /\ seen ok o e p q /\ nth_error out i = Some (with_columns magnitude phase wm wa e h (p, q)).
  Proof.
    intros wm wa obs eph hg idx out L F M. assert (L2 : List.length eph = List.length idx) by (apply Forall2_length in F; rewrite map_length in F; exact F).
    split; [apply mapM_length in M; rewrite M, !combine_length; lia|]. intros i e E.
    destruct (nth_both _ _ _ hg i e (eq_sym L) E) as [h Hh]. destruct (nth_both _ _ _ idx i e L2 E) as [j Hj].
    destruct (mapM_nth _ _ _ i _ M (nth_combine _ _ _ _ _ _ _ E (nth_combine _ _ _ _ _ _ _ Hh Hj))) as [r [Cr Rr]].
    assert (Fj : nth_error (map okey obs) j = Some (ekey e)) by exact (nth_forall2 _ _ _ _ _ i (ekey e) j F ltac:(rewrite nth_error_map, E; reflexivity) Hj).
    rewrite nth_error_map in Fj. destruct (nth_error obs j) as [o|] eqn:O; [|discriminate]. cbn in Fj. injection Fj as Fj.
    destruct (pair_of ok e (Some o)) as [[p q]|] eqn:G; [|discriminate]. injection Cr as <-. apply pair_some in G as [G1 [G2 G3]]. cbn in G1, G2, G3.
    exists h, o, p, q. split; [exact Hh|]. split; [eapply nth_error_In; exact O|]. split; [|exact Rr]. split; [apply key_observes; exact Fj|]. repeat split; assumption.
  Qed.
  Lemma cells_err : forall wm wa obs eph hg idx er, List.length hg = List.length eph -> apart obs -> Forall2 (fun k i => nth_error (map okey obs) i = Some k) (map ekey eph) idx ->
    mapM (cell wm wa obs) (combine eph (combine hg idx)) = Err er -> er = ValueError /\ exists e, In e eph /\ ~ exists o p q, In o obs /\ seen ok o e p q.
  Proof.
    intros wm wa obs eph hg idx er L Ap F M. apply mapM_err in M as [[e [h j]] [I C]].
    apply In_nth_error in I as [i I]. assert (E : nth_error eph i = Some e /\ nth_error idx i = Some j).
    { clear - I. revert hg idx i I. induction eph as [|x eph IH]; intros hg idx [|i] I; cbn in I; try discriminate; destruct hg as [|y hg]; try discriminate; destruct idx as [|z idx]; cbn in I; try discriminate.
      - injection I as <- <- <-. split; reflexivity.
      - exact (IH hg idx i I). }
    destruct E as [E J]. assert (Fj : nth_error (map okey obs) j = Some (ekey e)) by exact (nth_forall2 _ _ _ _ _ i (ekey e) j F ltac:(rewrite nth_error_map, E; reflexivity) J).
    rewrite nth_error_map in Fj. destruct (nth_error obs j) as [o|] eqn:O; [|discriminate]. cbn in Fj. injection Fj as Fj.
    destruct (pair_of ok e (Some o)) as [g|] eqn:G; [discriminate|]. injection C as <-. split; [reflexivity|]. exists e. split; [eapply nth_error_In; exact E|].
    intros [o' [p [q [Io [S1 [S2 [S3 S4]]]]]]]. apply In_nth_error in Io as [k Ko]. apply key_inj in Fj as [K1 [K2 K3]]. destruct S1 as [T1 [T2 T3]].
    assert (k = j) by (apply (Ap k j o' o Ko O); congruence). subst k. assert (o' = o) by congruence. subst o'.
    assert (Z : pair_of ok e (Some o) = Some (p, q)) by (apply pair_some; repeat split; assumption). congruence.
  Qed.

  (* each row is paired with the only observer of its code and time; the rows and the other columns stay *)
  Theorem C278_rows : forall wm wa es os' orbits observers eph out, attach wm wa es os' orbits observers eph = Ok out ->
    let obs := map (at_scale rescale os' es) observers in
    List.length out = List.length eph
    /\ (forall i e, nth_error eph i = Some e -> exists r, nth_error out i = Some r /\ same_columns e r
         /\ (lively eph -> asked wm wa orbits eph -> apart obs /\ exists o p q, In o obs /\ seen ok o e p q
              /\ e_alpha r = (if wa then phase p q else e_alpha e)
              /\ (wm = false -> e_mag r = e_mag e)
              /\ (wm = true -> (exists e' h g, In e' eph /\ has_param orbits (e_orbit e') h g) ->
                    (forall h g, has_param orbits (e_orbit e) h g -> exists h' g', (h' == h)%Q /\ (g' == g)%Q /\ e_mag r = magnitude h' p q g')
                    /\ ((forall h g, ~ has_param orbits (e_orbit e) h g) -> e_mag r = None))))
    /\ (~ (lively eph /\ asked wm wa orbits eph) -> out = eph).
  Proof.
    intros wm wa es os' orbits observers eph out H obs. unfold AttModel.attach in H. rewrite scale_same in H.
    assert (Id : out = eph -> ~ (lively eph /\ asked wm wa orbits eph) -> List.length out = List.length eph
      /\ (forall i e, nth_error eph i = Some e -> exists r, nth_error out i = Some r /\ same_columns e r
         /\ (lively eph -> asked wm wa orbits eph -> apart obs /\ exists o p q, In o obs /\ seen ok o e p q
              /\ e_alpha r = (if wa then phase p q else e_alpha e) /\ (wm = false -> e_mag r = e_mag e)
              /\ (wm = true -> (exists e' h g, In e' eph /\ has_param orbits (e_orbit e') h g) ->
                    (forall h g, has_param orbits (e_orbit e) h g -> exists h' g', (h' == h)%Q /\ (g' == g)%Q /\ e_mag r = magnitude h' p q g')
                    /\ ((forall h g, ~ has_param orbits (e_orbit e) h g) -> e_mag r = None))))
      /\ (~ (lively eph /\ asked wm wa orbits eph) -> out = eph)).
    { intros -> Nt. split; [reflexivity|]. split; [|reflexivity]. intros i e E. exists e. split; [exact E|]. split; [repeat split|]. intros A B. destruct (Nt (conj A B)). }
    destruct ((negb wm && negb wa) || match eph with [] => true | _ => false end)%bool eqn:E1.
    { injection H as <-. apply Id; [reflexivity|]. intros [[e [I _]] A]. destruct eph as [|x eph]; [exact I|]. destruct wm, wa; cbn in E1; try discriminate. destruct A as [A|[A _]]; discriminate. }
    destruct (forallb idle eph) eqn:E2.
    { injection H as <-. apply Id; [reflexivity|]. intros [A _]. apply lively_idle in A as [_ A]. congruence. }
    destruct (if wm then hg_params orbits (map e_orbit eph) else Ok (map (fun _ => None) eph)) as [hg|] eqn:HG; [|discriminate]. cbn [bind] in H.
    assert (Lh : List.length hg = List.length eph).
    { destruct wm; [|injection HG as <-; apply map_length]. apply hg_ok in HG as [_ F]. apply Forall2_length in F. rewrite map_length in F. congruence. }
    assert (Any : wm = true -> (existsb given hg = true <-> exists e h g, In e eph /\ has_param orbits (e_orbit e) h g)).
    { intros ->. apply hg_ok in HG as [_ F]. rewrite existsb_exists. split.
      - intros [[[h g]|] [I Z]]; [|discriminate]. apply In_nth_error in I as [i I]. destruct (nth_both _ _ _ eph i _ Lh I) as [e E].
        assert (R : row_params orbits (e_orbit e) (Some (h, g))) by (eapply nth_forall2; [exact F|rewrite nth_error_map, E; reflexivity|exact I]). destruct R as [[h' [g' R]] _].
        exists e, h', g'. split; [eapply nth_error_In; exact E|exact R].
      - intros [e [h [g [I R]]]]. apply In_nth_error in I as [i I]. destruct (nth_both _ _ _ hg i _ (eq_sym Lh) I) as [x X].
        assert (R' : row_params orbits (e_orbit e) x) by (eapply nth_forall2; [exact F|rewrite nth_error_map, I; reflexivity|exact X]).
        destruct x as [x|]; [|destruct (R' h g R)]. exists (Some x). split; [eapply nth_error_In; exact X|reflexivity]. }
    destruct (negb wa && negb (wm && existsb given hg))%bool eqn:E3.
    { injection H as <-. apply Id; [reflexivity|]. intros [_ [A|[A B]]]; [rewrite A in E3; discriminate|]. rewrite (proj2 (Any A) B), A in E3. rewrite andb_false_r in E3. discriminate. }
    fold obs in H. destruct (align (map okey obs) (map ekey eph)) as [idx|] eqn:AL; [|discriminate]. cbn [bind] in H. apply align_ok in AL as [ND F].
    destruct (cells_ok _ _ _ _ _ _ _ Lh F H) as [L At]. split; [exact L|]. split.
    - intros i e E. destruct (At i e E) as [h [o [p [q [Hh [Io [Se Ro]]]]]]]. eexists. split; [exact Ro|]. split; [repeat split|]. intros _ _. split; [apply keys_apart; exact ND|].
      exists o, p, q. split; [exact Io|]. split; [exact Se|]. cbn [with_columns e_alpha e_mag fst snd]. split; [reflexivity|]. split; [intros ->; reflexivity|]. intros W X. rewrite (proj2 (Any W) X), W. cbn [andb].
      subst wm. apply hg_ok in HG as [_ F']. assert (R : row_params orbits (e_orbit e) h) by (eapply nth_forall2; [exact F'|rewrite nth_error_map, E; reflexivity|exact Hh]). split.
      + intros h0 g0 Z. destruct h as [[h1 g1]|]; [|destruct (R h0 g0 Z)]. destruct R as [_ R]. destruct (R h0 g0 Z) as [R1 R2]. exists h1, g1. repeat split; assumption.
      + intros Z. destruct h as [[h1 g1]|]; [|reflexivity]. destruct R as [[h' [g' R]] _]. destruct (Z _ _ R).
    - intros Nt. exfalso. apply Nt. split.
      + apply lively_idle. split; [intros ->; cbn in E1; rewrite orb_true_r in E1; discriminate|exact E2].
      + destruct wa; [left; reflexivity|]. right. destruct wm; [|cbn in E3; discriminate]. split; [reflexivity|]. apply (Any eq_refl). cbn in E3. apply negb_false_iff in E3. exact E3.
  Qed.
  (* refused exactly for conflicting parameters, repeated observers, and a row without an observer in sensible geometry *)
  Theorem C278_refused : forall wm wa es os' orbits observers eph,
    let obs := map (at_scale rescale os' es) observers in
    (forall er, attach wm wa es os' orbits observers eph = Err er -> er = ValueError)
    /\ (attach wm wa es os' orbits observers eph = Err ValueError <->
        lively eph /\ ((wm = true /\ ~ agreeing orbits)
          \/ (asked wm wa orbits eph /\ (~ apart obs \/ exists e, In e eph /\ ~ exists o p q, In o obs /\ seen ok o e p q)))).
  Proof.
    intros wm wa es os' orbits observers eph obs.
    assert (Neg : forall er, attach wm wa es os' orbits observers eph = Err er -> er = ValueError /\ lively eph /\ ((wm = true /\ ~ agreeing orbits)
          \/ (asked wm wa orbits eph /\ (~ apart obs \/ exists e, In e eph /\ ~ exists o p q, In o obs /\ seen ok o e p q)))).
    { intros er H. unfold AttModel.attach in H. rewrite scale_same in H. destruct ((negb wm && negb wa) || match eph with [] => true | _ => false end)%bool eqn:E1; [discriminate|]. destruct (forallb idle eph) eqn:E2; [discriminate|].
      assert (Lv : lively eph) by (apply lively_idle; split; [intros ->; cbn in E1; rewrite orb_true_r in E1; discriminate|exact E2]).
      destruct (if wm then hg_params orbits (map e_orbit eph) else Ok (map (fun _ => None) eph)) as [hg|e] eqn:HG; cbn [bind] in H.
      2:{ injection H as <-. destruct wm; [|discriminate]. apply hg_err in HG as [-> A]. split; [reflexivity|]. split; [exact Lv|]. left. split; [reflexivity|exact A]. }
      assert (Lh : List.length hg = List.length eph).
      { destruct wm; [|injection HG as <-; apply map_length]. apply hg_ok in HG as [_ F]. apply Forall2_length in F. rewrite map_length in F. congruence. }
      destruct (negb wa && negb (wm && existsb given hg))%bool eqn:E3; [discriminate|].
      assert (As : asked wm wa orbits eph).
      { destruct wa; [left; reflexivity|]. right. destruct wm; [|cbn in E3; discriminate]. split; [reflexivity|]. cbn in E3. apply negb_false_iff in E3. apply existsb_exists in E3 as [[[h g]|] [I Z]]; [|discriminate].
        apply hg_ok in HG as [_ F]. apply In_nth_error in I as [i I]. destruct (nth_both _ _ _ eph i _ Lh I) as [e E].
        assert (R : row_params orbits (e_orbit e) (Some (h, g))) by (eapply nth_forall2; [exact F|rewrite nth_error_map, E; reflexivity|exact I]). destruct R as [[h' [g' R]] _].
        exists e, h', g'. split; [eapply nth_error_In; exact E|exact R]. }
      fold obs in H. destruct (align (map okey obs) (map ekey eph)) as [idx|e] eqn:AL; cbn [bind] in H.
      - apply align_ok in AL as [ND F]. apply keys_apart in ND. destruct (cells_err _ _ _ _ _ _ _ Lh ND F H) as [-> B]. split; [reflexivity|]. split; [exact Lv|]. right. split; [exact As|]. right. exact B.
      - injection H as <-. apply align_err in AL as [-> A]. split; [reflexivity|]. split; [exact Lv|]. right. split; [exact As|]. destruct A as [A|[k [I A]]].
        + left. intros B. apply A, keys_apart, B.
        + right. apply in_map_iff in I as [e [<- I]]. exists e. split; [exact I|]. intros [o [p [q [Io [S _]]]]]. apply A. apply in_map_iff. exists o. split; [apply key_observes; exact S|exact Io]. }
    split; [intros er H; exact (proj1 (Neg er H))|]. split; [intros H; exact (proj2 (Neg _ H))|].
    intros [Lv D]. destruct (attach wm wa es os' orbits observers eph) as [out|er] eqn:H; [|rewrite (proj1 (Neg er eq_refl)); reflexivity]. exfalso.
    destruct D as [[-> A]|[As D]].
    - unfold AttModel.attach in H. rewrite scale_same in H. apply lively_idle in Lv as [L1 L2]. rewrite L2 in H. destruct eph as [|x eph]; [contradiction|]. cbn [negb andb orb] in H.
      destruct (hg_params orbits (map e_orbit (x :: eph))) as [hg|] eqn:HG; [|discriminate]. apply A. exact (proj1 (hg_ok _ _ _ HG)).
    - destruct (C278_rows _ _ _ _ _ _ _ _ H) as [_ [R _]]. destruct D as [D|[e [I D]]].
      + destruct Lv as [e [I Z]]. apply In_nth_error in I as [i I]. destruct (R i e I) as [r [_ [_ R']]]. destruct (R' (ex_intro _ e (conj (nth_error_In _ _ I) Z)) As) as [Ap _]. exact (D Ap).
      + apply In_nth_error in I as [i I]. destruct (R i e I) as [r [_ [_ R']]]. destruct (R' Lv As) as [_ [o [p [q [Io [S _]]]]]]. apply D. exists o, p, q. split; assumption.
  Qed.

  (* ---- C279 ---- *)
  Lemma merge_rows : forall obs eph hg idx r, List.length hg = List.length eph ->
    (mapM (cell true true obs) (combine eph (combine hg idx)) = Ok r <->
     exists r1 r2, mapM (cell true false obs) (combine eph (combine hg idx)) = Ok r1
       /\ mapM (cell false true obs) (combine eph (combine (map (fun _ => None) eph) idx)) = Ok r2 /\ r = map (fun q => merge (fst q) (snd q)) (combine r1 r2)).
  Proof.
    intros obs. induction eph as [|e eph IH]; intros hg idx r L.
    - cbn. split; [intros H; injection H as <-; exists [], []; repeat split|]. intros [r1 [r2 [H1 [H2 ->]]]]. injection H1 as <-. reflexivity.
    - destruct hg as [|h hg]; [discriminate|]. destruct idx as [|i idx].
      + cbn. split; [intros H; injection H as <-; exists [], []; repeat split|]. intros [r1 [r2 [H1 [H2 ->]]]]. injection H1 as <-. reflexivity.
      + cbn [map combine mapM]. destruct (pair_of ok e (nth_error obs i)) as [g|]; cbn [bind]; [|split; [discriminate|intros [r1 [r2 [Z _]]]; discriminate]].
        cbn in L. assert (L' : List.length hg = List.length eph) by congruence. split.
        * intros H. destruct (mapM (cell true true obs) (combine eph (combine hg idx))) as [s|] eqn:M; [|discriminate]. cbn [bind] in H. injection H as <-.
          destruct (proj1 (IH hg idx s L') M) as [r1 [r2 [H1 [H2 ->]]]]. rewrite H1, H2. cbn [bind]. eexists. eexists. split; [reflexivity|]. split; reflexivity.
        * intros [r1 [r2 [H1 [H2 ->]]]]. destruct (mapM (cell true false obs) _) as [s1|] eqn:M1; [|discriminate]. destruct (mapM (cell false true obs) _) as [s2|] eqn:M2; [|discriminate].
          cbn [bind] in H1, H2. injection H1 as <-. injection H2 as <-. rewrite (proj2 (IH hg idx (map (fun q => merge (fst q) (snd q)) (combine s1 s2)) L')); [reflexivity|]. exists s1, s2. split; [exact M1|]. split; [exact M2|reflexivity].
  Qed.
  Lemma merge_same : forall eph : list (@erow P N), map (fun q => merge (fst q) (snd q)) (combine eph eph) = eph.
  Proof. induction eph as [|e eph IH]; [reflexivity|]. cbn. rewrite IH. destruct e; reflexivity. Qed.
  Lemma cells_keep : forall obs eph hg idx r, mapM (cell false true obs) (combine eph (combine hg idx)) = Ok r -> List.length hg = List.length eph -> List.length idx = List.length eph ->
    map (fun q => merge (fst q) (snd q)) (combine eph r) = r.
  Proof.
    intros obs. induction eph as [|e eph IH]; intros hg idx r M L1 L2; [cbn in M; injection M as <-; reflexivity|]. destruct hg as [|h hg]; [discriminate|]. destruct idx as [|i idx]; [discriminate|].
    cbn [combine mapM] in M. destruct (pair_of ok e (nth_error obs i)) as [g|]; [|discriminate]. cbn [bind] in M. destruct (mapM _ _) as [s|] eqn:E; [|discriminate]. cbn [bind] in M. injection M as <-.
    cbn [combine map]. rewrite (IH hg idx s E) by (cbn in *; congruence). reflexivity.
  Qed.
  Lemma all_none : forall (hg : list (option (Q * Q))) (eph : list (@erow P N)), List.length hg = List.length eph -> existsb given hg = false -> hg = map (fun _ => None) eph.
  Proof. induction hg as [|[h|] hg IH]; intros [|e eph] L H; try discriminate; [reflexivity|]. cbn in *. rewrite <- (IH eph) by congruence. reflexivity. Qed.
  (* asking for both columns succeeds exactly when asking for each of them does, with the same columns *)
  Theorem C279 : forall es os' orbits observers eph r,
    attach true true es os' orbits observers eph = Ok r <->
    exists r1 r2, attach true false es os' orbits observers eph = Ok r1 /\ attach false true es os' orbits observers eph = Ok r2
      /\ r = map (fun q => merge (fst q) (snd q)) (combine r1 r2).
  Proof.
    intros es os' orbits observers eph r. unfold AttModel.attach. rewrite !scale_same. cbn [negb andb orb].
    destruct (match eph with [] => true | _ => false end).
    { split; [intros H; injection H as <-; exists eph, eph; rewrite merge_same; repeat split|]. intros [r1 [r2 [H1 [H2 ->]]]]. injection H1 as <-. injection H2 as <-. rewrite merge_same. reflexivity. }
    destruct (forallb idle eph).
    { split; [intros H; injection H as <-; exists eph, eph; rewrite merge_same; repeat split|]. intros [r1 [r2 [H1 [H2 ->]]]]. injection H1 as <-. injection H2 as <-. rewrite merge_same. reflexivity. }
    destruct (hg_params orbits (map e_orbit eph)) as [hg|] eqn:HG; cbn [bind]; [|split; [discriminate|intros [r1 [r2 [Z _]]]; discriminate]].
    assert (Lh : List.length hg = List.length eph) by (apply hg_ok in HG as [_ F]; apply Forall2_length in F; rewrite map_length in F; congruence).
    set (obs := map (at_scale rescale os' es) observers). destruct (align (map okey obs) (map ekey eph)) as [idx|] eqn:AL; cbn [bind].
    2:{ split; [discriminate|]. intros [r1 [r2 [_ [Z _]]]]. discriminate. }
    assert (Li : List.length idx = List.length eph) by (apply align_ok in AL as [_ F]; apply Forall2_length in F; rewrite map_length in F; congruence).
    destruct (existsb given hg) eqn:G; cbn [negb andb].
    - apply merge_rows. exact Lh.
    - rewrite (all_none hg eph Lh G). split.
      + intros H. exists eph, r. split; [reflexivity|]. split; [exact H|]. symmetry. apply (cells_keep _ _ _ _ _ H); [apply map_length|exact Li].
      + intros [r1 [r2 [H1 [H2 ->]]]]. injection H1 as <-. rewrite (cells_keep _ _ _ _ _ H2); [exact H2|apply map_length|exact Li].
  Qed.
  (* ---- C280 ---- *)
  (* nothing is refused when parameters agree, observers are apart and every row has its observer *)
  Theorem C280_partial : forall wm wa es os' orbits observers eph, agreeing orbits -> apart (map (at_scale rescale os' es) observers) ->
    (forall e, In e eph -> exists o p q, In o (map (at_scale rescale os' es) observers) /\ seen ok o e p q) ->
    exists out, attach wm wa es os' orbits observers eph = Ok out.
  Proof.
    intros wm wa es os' orbits observers eph A Ap S. destruct (attach wm wa es os' orbits observers eph) as [out|er] eqn:H; [exists out; reflexivity|]. exfalso.
    destruct (C278_refused wm wa es os' orbits observers eph) as [V R]. rewrite (V er H) in H. apply (proj1 R) in H as [_ [[_ Z]|[_ [Z|[e [I Z]]]]]]; [exact (Z A)|exact (Z Ap)|exact (Z (S e I))].
  Qed.
  (* ---- C283 ---- *)
  Definition params_of (os : list hgrow) (id : string) : option (Q * Q) :=
    match group (valid_rows os) id with [] => None | g => Some (least (map fst g), least (map snd g)) end.
  Lemma hg_map : forall os ids r, hg_params os ids = Ok r -> r = map (params_of os) ids.
  Proof.
    intros os ids r H. unfold hg_params in H. destruct (valid_rows os) as [|v0 v1] eqn:V.
    - injection H as <-. apply map_ext. intros id. unfold params_of. rewrite V. reflexivity.
    - rewrite <- V in *. destruct (existsb _ _); [discriminate|]. injection H as <-. reflexivity.
  Qed.
  Lemma params_none : forall os id, (forall h g, ~ has_param os id h g) -> params_of os id = None.
  Proof. intros os id H. unfold params_of. destruct (group (valid_rows os) id) as [|[h g] l] eqn:G; [reflexivity|]. exfalso. apply (H h g). apply group_iff. rewrite G. left. reflexivity. Qed.
  Lemma group_none : forall os id, (forall o, In o os -> b_id o <> id) -> group (valid_rows os) id = [].
  Proof.
    intros os id H. destruct (group (valid_rows os) id) as [|[h g] l] eqn:G; [reflexivity|]. exfalso.
    assert (I : In (h, g) (group (valid_rows os) id)) by (rewrite G; left; reflexivity). apply group_iff in I as [o [I [E _]]]. exact (H o I E).
  Qed.
  Lemma group_app : forall a b id, group (valid_rows (a ++ b)) id = group (valid_rows a) id ++ group (valid_rows b) id.
  Proof. intros a b id. unfold group, valid_rows. rewrite flat_map_app, filter_app, map_app. reflexivity. Qed.
  (* the result of one row when everything is in order *)
  Definition rowf (wm wa : bool) (os : list hgrow) (obs : list (@obsr P)) (e : @erow P N) : @erow P N :=
    match index_in (ekey e) (map okey obs) with
    | Some i => match pair_of ok e (nth_error obs i) with Some g => with_columns magnitude phase wm wa e (params_of os (e_orbit e)) g | None => e end
    | None => e
    end.
  Lemma cells_map : forall wm wa os obs eph idx hg out, NoDup (map okey obs) -> Forall2 (fun k i => nth_error (map okey obs) i = Some k) (map ekey eph) idx ->
    (wm = true -> hg = map (params_of os) (map e_orbit eph)) -> List.length hg = List.length eph ->
    mapM (cell wm wa obs) (combine eph (combine hg idx)) = Ok out -> out = map (rowf wm wa os obs) eph.
  Proof.
    intros wm wa os obs. induction eph as [|e eph IH]; intros idx hg out ND F Hg L M; [cbn in M; injection M as <-; reflexivity|].
    inversion F as [|? i ? idx' F1 F2]; subst. destruct hg as [|h hg]; [discriminate|]. cbn [combine mapM map] in M |- *.
    destruct (pair_of ok e (nth_error obs i)) as [g|] eqn:G; [|discriminate]. cbn [bind] in M. destruct (mapM _ _) as [s|] eqn:E; [|discriminate]. cbn [bind] in M. injection M as <-.
    f_equal.
    - unfold rowf. destruct (index_in_in (ekey e) (map okey obs)) as [j Hj]; [eapply nth_error_In; exact F1|]. rewrite Hj. apply index_some in Hj. rewrite (nodup_pos _ _ _ _ ND Hj F1), G.
      destruct wm; [|reflexivity]. specialize (Hg eq_refl). cbn in Hg. injection Hg as -> _. reflexivity.
    - apply (IH idx' hg s ND F2); [|cbn in L; congruence|exact E]. intros W. specialize (Hg W). cbn in Hg. injection Hg as _ ->. reflexivity.
  Qed.
  (* the whole table, when no magnitudes were there before *)
  Lemma attach_map : forall wm wa es os' orbits observers eph out, (forall e, In e eph -> e_mag e = None) -> lively eph -> asked wm wa orbits eph ->
    attach wm wa es os' orbits observers eph = Ok out -> out = map (rowf wm wa orbits (map (at_scale rescale os' es) observers)) eph.
  Proof.
    intros wm wa es os' orbits observers eph out Nm Lv As H. unfold AttModel.attach in H. rewrite scale_same in H. set (obs := map (at_scale rescale os' es) observers) in *.
    apply lively_idle in Lv as [L1 L2]. rewrite L2 in H. destruct ((negb wm && negb wa) || match eph with [] => true | _ => false end)%bool eqn:E1.
    { exfalso. destruct eph as [|x eph]; [contradiction|]. destruct wm, wa; cbn in E1; try discriminate. destruct As as [A|[A _]]; discriminate. }
    destruct (if wm then hg_params orbits (map e_orbit eph) else Ok (map (fun _ => None) eph)) as [hg|] eqn:HG; [|discriminate]. cbn [bind] in H.
    assert (Lh : List.length hg = List.length eph).
    { destruct wm; [|injection HG as <-; apply map_length]. apply hg_ok in HG as [_ F]. apply Forall2_length in F. rewrite map_length in F. congruence. }
    destruct (negb wa && negb (wm && existsb given hg))%bool eqn:E3.
    { injection H as <-. exfalso. destruct As as [->|[-> [e [h [g [I R]]]]]]; [discriminate|]. apply andb_prop in E3 as [_ E3]. cbn in E3. apply negb_true_iff in E3.
      rewrite (all_none hg eph Lh E3) in HG. apply hg_ok in HG as [_ F]. apply In_nth_error in I as [i I].
      assert (R' : row_params orbits (e_orbit e) None) by (eapply nth_forall2; [exact F|rewrite nth_error_map, I; reflexivity|rewrite nth_error_map, I; reflexivity]). exact (R' h g R). }
    destruct (align (map okey obs) (map ekey eph)) as [idx|] eqn:AL; [|discriminate]. cbn [bind] in H. apply align_ok in AL as [ND F].
    destruct wm.
    - destruct (existsb given hg) eqn:G; cbn [andb] in H.
      + apply (cells_map _ _ orbits _ _ _ _ _ ND F) in H; [exact H| |exact Lh]. intros _. exact (hg_map _ _ _ HG).
      + apply (cells_map _ _ orbits _ _ _ _ _ ND F) in H; [|discriminate|exact Lh]. rewrite H. apply map_ext_in. intros e I. unfold rowf. destruct (index_in _ _) as [i|]; [|reflexivity]. destruct (pair_of _ _ _) as [g|]; [|reflexivity].
        unfold with_columns. rewrite (Nm e I). assert (Pn : params_of orbits (e_orbit e) = None); [|rewrite Pn; reflexivity].
        pose proof (hg_map _ _ _ HG) as Hm. rewrite (all_none hg eph Lh G) in Hm. apply In_nth_error in I as [k I].
        apply (f_equal (fun l => nth_error l k)) in Hm. rewrite !nth_error_map, I in Hm. cbn in Hm. congruence.
    - cbn [andb] in H. apply (cells_map _ _ orbits _ _ _ _ _ ND F) in H; [exact H|discriminate|exact Lh].
  Qed.
  (* splitting the orbits into chunks with their own rows gives the same table *)
  Theorem C283_partial : forall wm wa es os' observers (chunks : list (list hgrow * list (@erow P N))) out,
    (forall c e, In c chunks -> In e (snd c) -> e_mag e = None) ->
    (forall i j c d e o, nth_error chunks i = Some c -> nth_error chunks j = Some d -> In e (snd c) -> In o (fst d) -> b_id o = e_orbit e -> i = j) ->
    attach wm wa es os' (concat (map fst chunks)) observers (concat (map snd chunks)) = Ok out ->
    exists outs, mapM (fun c => attach wm wa es os' (fst c) observers (snd c)) chunks = Ok outs /\ out = concat outs.
  Proof.
    intros wm wa es os' observers chunks out Nm Dj H. set (orbits := concat (map fst chunks)) in *. set (eph := concat (map snd chunks)) in *. set (obs := map (at_scale rescale os' es) observers).
    assert (InE : forall c e, In c chunks -> In e (snd c) -> In e eph) by (intros c e A B; apply in_concat; exists (snd c); split; [apply in_map; exact A|exact B]).
    assert (InO : forall c o, In c chunks -> In o (fst c) -> In o orbits) by (intros c o A B; apply in_concat; exists (fst c); split; [apply in_map; exact A|exact B]).
    assert (Up : forall c id h g, In c chunks -> has_param (fst c) id h g -> has_param orbits id h g) by (intros c id h g A [o [B C]]; exists o; split; [exact (InO c o A B)|exact C]).
    assert (Same : forall c e, In c chunks -> In e (snd c) -> params_of orbits (e_orbit e) = params_of (fst c) (e_orbit e)).
    { intros c e A B. apply In_nth_error in A as [i A]. pose proof A as A'. apply nth_error_split in A as [l1 [l2 [E Li]]]. unfold params_of.
      assert (G : group (valid_rows orbits) (e_orbit e) = group (valid_rows (fst c)) (e_orbit e)); [|rewrite G; reflexivity].
      unfold orbits. rewrite E, map_app, concat_app. cbn [map concat]. rewrite !group_app.
      assert (Z : forall k l, (forall d, In d l -> exists j, nth_error chunks j = Some d /\ j <> i) -> k = concat (map fst l) -> group (valid_rows k) (e_orbit e) = []).
      { intros k l Q ->. apply group_none. intros o Io Eo. apply in_concat in Io as [x [Ix Io]]. apply in_map_iff in Ix as [d [<- Id]]. destruct (Q d Id) as [j [J1 J2]]. apply J2. symmetry. exact (Dj i j c d e o A' J1 B Io Eo). }
      rewrite (Z (concat (map fst l1)) l1), (Z (concat (map fst l2)) l2); try reflexivity.
      - rewrite app_nil_r. reflexivity.
      - intros d Id. apply In_nth_error in Id as [j J]. exists (List.length l1 + S j). split; [|lia]. rewrite E, nth_error_app2 by lia. replace (List.length l1 + S j - List.length l1) with (S j) by lia. exact J.
      - intros d Id. apply In_nth_error in Id as [j J]. assert (j < List.length l1) by (apply nth_error_Some; congruence). exists j. split; [|lia]. rewrite E, nth_error_app1 by assumption. exact J. }
    assert (Agree : wm = true -> lively eph -> agreeing orbits).
    { intros -> Lv. unfold AttModel.attach in H. rewrite scale_same in H. apply lively_idle in Lv as [L1 L2]. rewrite L2 in H. destruct eph as [|x l]; [contradiction|]. cbn [negb andb orb] in H.
      destruct (hg_params orbits (map e_orbit (x :: l))) as [hg|] eqn:HG; [|discriminate]. exact (proj1 (hg_ok _ _ _ HG)). }
    assert (Part : exists F, out = map F eph /\ forall c, In c chunks -> attach wm wa es os' (fst c) observers (snd c) = Ok (map F (snd c))).
    { assert (LvUp : forall c, In c chunks -> lively (snd c) -> lively eph) by (intros c A [e [B C]]; exists e; split; [exact (InE c e A B)|exact C]).
      assert (AsUp : forall c, In c chunks -> asked wm wa (fst c) (snd c) -> asked wm wa orbits eph).
      { intros c A [B|[B [e [h [g [C D]]]]]]; [left; exact B|]. right. split; [exact B|]. exists e, h, g. split; [exact (InE c e A C)|exact (Up c _ _ _ A D)]. }
      assert (AgDn : forall c, In c chunks -> agreeing orbits -> agreeing (fst c)) by (intros c A B id h g h' g' X Y; exact (B id h g h' g' (Up c _ _ _ A X) (Up c _ _ _ A Y))).
      destruct (C278_rows _ _ _ _ _ _ _ _ H) as [_ [Rows Stay]].
      assert (Id : ~ (lively eph /\ asked wm wa orbits eph) -> exists F, out = map F eph /\ forall c, In c chunks -> attach wm wa es os' (fst c) observers (snd c) = Ok (map F (snd c))).
      { intros Nt. exists (fun e => e). split; [rewrite map_id; exact (Stay Nt)|]. intros c A. rewrite map_id.
        destruct (attach wm wa es os' (fst c) observers (snd c)) as [oc|er] eqn:Hc.
        - destruct (C278_rows _ _ _ _ _ _ _ _ Hc) as [_ [_ St]]. rewrite St; [reflexivity|]. intros [X Y]. apply Nt. split; [exact (LvUp c A X)|exact (AsUp c A Y)].
        - exfalso. destruct (C278_refused wm wa es os' (fst c) observers (snd c)) as [V R]. rewrite (V er Hc) in Hc. apply (proj1 R) in Hc as [X [[W Z]|[Y _]]].
          + apply Z, (AgDn c A), (Agree W), (LvUp c A X).
          + apply Nt. split; [exact (LvUp c A X)|exact (AsUp c A Y)]. }
      destruct (existsb (fun e : @erow P N => negb (match e_pos e with None => true | _ => false end)) eph) eqn:LvB.
      2:{ apply Id. intros [[e [I Z]] _]. apply not_true_iff_false in LvB. apply LvB. apply existsb_exists. exists e. split; [exact I|]. destruct (e_pos e); [reflexivity|contradiction]. }
      assert (Lv : lively eph) by (apply existsb_exists in LvB as [e [I Z]]; exists e; split; [exact I|]; intros Q; rewrite Q in Z; discriminate).
      destruct (wa || (wm && existsb (fun e => given (params_of orbits (e_orbit e))) eph))%bool eqn:AsB.
      2:{ apply Id. apply orb_false_iff in AsB as [B1 B2]. intros [_ [Q|[-> [e [h [g [I R]]]]]]]; [congruence|]. cbn in B2. apply not_true_iff_false in B2. apply B2. apply existsb_exists. exists e. split; [exact I|].
          unfold params_of. apply group_iff in R. destruct (group (valid_rows orbits) (e_orbit e)); [destruct R|reflexivity]. }
      assert (As : asked wm wa orbits eph).
      { apply orb_prop in AsB as [B|B]; [left; exact B|]. apply andb_prop in B as [B1 B2]. right. split; [exact B1|]. apply existsb_exists in B2 as [e [I Z]]. unfold params_of in Z.
        destruct (group (valid_rows orbits) (e_orbit e)) as [|[h g] l] eqn:G; [discriminate|]. exists e, h, g. split; [exact I|]. apply group_iff. rewrite G. left. reflexivity. }
      exists (rowf wm wa orbits obs). split.
      { apply attach_map; try assumption. intros e I. apply in_concat in I as [x [Ix I]]. apply in_map_iff in Ix as [c [<- Ic]]. exact (Nm c e Ic I). }
      intros c A. assert (Ok' : exists oc, attach wm wa es os' (fst c) observers (snd c) = Ok oc).
      { destruct (attach wm wa es os' (fst c) observers (snd c)) as [oc|er] eqn:Hc; [exists oc; reflexivity|]. exfalso.
        destruct (C278_refused wm wa es os' (fst c) observers (snd c)) as [V R]. rewrite (V er Hc) in Hc. apply (proj1 R) in Hc as [X [[W Z]|[Y [Z|[e [I Z]]]]]].
        - apply Z, (AgDn c A), (Agree W), Lv.
        - destruct Lv as [e [I Q]]. apply In_nth_error in I as [i I]. destruct (Rows i e I) as [r [_ [_ Rr]]]. exact (Z (proj1 (Rr (ex_intro _ e (conj (nth_error_In _ _ I) Q)) As))).
        - apply InE with (1 := A) in I. apply In_nth_error in I as [i I]. destruct (Rows i e I) as [r [_ [_ Rr]]]. destruct (Rr Lv As) as [_ [o [p [q [Io [S _]]]]]]. apply Z. exists o, p, q. split; assumption. }
      destruct Ok' as [oc Hc]. rewrite Hc. f_equal.
      assert (Ext : map (rowf wm wa orbits obs) (snd c) = map (rowf wm wa (fst c) obs) (snd c)) by (apply map_ext_in; intros e I; unfold rowf; rewrite (Same c e A I); reflexivity). rewrite Ext.
      assert (Pos : forall e, In e (snd c) -> e_pos e <> None).
      { intros e I. apply InE with (1 := A) in I. apply In_nth_error in I as [i I]. destruct (Rows i e I) as [r [_ [_ Rr]]]. destruct (Rr Lv As) as [_ [o [p [q [Io [[_ [S _]] _]]]]]]. congruence. }
      destruct (snd c) as [|x l] eqn:Sc.
      { cbn in Hc. unfold AttModel.attach in Hc. rewrite orb_true_r in Hc. injection Hc as <-. reflexivity. }
      rewrite <- Sc in *. assert (Lc : lively (snd c)) by (exists x; rewrite Sc; split; [left; reflexivity|apply Pos; rewrite Sc; left; reflexivity]).
      destruct (wa || (wm && existsb (fun e => given (params_of (fst c) (e_orbit e))) (snd c)))%bool eqn:AcB.
      - apply attach_map; try assumption; [intros e I; exact (Nm c e A I)|]. apply orb_prop in AcB as [B|B]; [left; exact B|]. apply andb_prop in B as [B1 B2]. right. split; [exact B1|]. apply existsb_exists in B2 as [e [I Z]]. unfold params_of in Z.
        destruct (group (valid_rows (fst c)) (e_orbit e)) as [|[h g] k] eqn:G; [discriminate|]. exists e, h, g. split; [exact I|]. apply group_iff. rewrite G. left. reflexivity.
      - apply orb_false_iff in AcB as [-> B2].
        assert (Nn : wm = true -> forall e, In e (snd c) -> params_of (fst c) (e_orbit e) = None).
        { intros -> e I. cbn in B2. destruct (params_of (fst c) (e_orbit e)) eqn:Z; [|reflexivity]. exfalso. apply not_true_iff_false in B2. apply B2. apply existsb_exists. exists e. split; [exact I|]. rewrite Z. reflexivity. }
        destruct (C278_rows _ _ _ _ _ _ _ _ Hc) as [_ [_ St]]. rewrite St.
        + rewrite <- (map_id (snd c)) at 1. apply map_ext_in. intros e I. unfold rowf. destruct (index_in _ _) as [i|]; [|reflexivity]. destruct (pair_of _ _ _) as [g|]; [|reflexivity]. unfold with_columns.
          destruct wm; [rewrite (Nn eq_refl e I), <- (Nm c e A I)|]; destruct e; reflexivity.
        + intros [_ [Q|[W [e [h [g [I R]]]]]]]; [discriminate|]. specialize (Nn W e I). unfold params_of in Nn. apply group_iff in R. destruct (group (valid_rows (fst c)) (e_orbit e)); [destruct R|discriminate]. }
    destruct Part as [F [-> PF]]. exists (map (fun c => map F (snd c)) chunks). split.
    - clear - PF. induction chunks as [|c l IH]; [reflexivity|]. cbn [mapM map]. rewrite (PF c (or_introl eq_refl)). cbn [bind]. rewrite IH by (intros d I; apply PF; right; exact I). reflexivity.
    - unfold eph. rewrite concat_map, map_map. reflexivity.
  Qed.
End Props.
Print Assumptions C283_partial.
Print Assumptions C278_rows.
Print Assumptions C278_refused.
Print Assumptions C279.
Print Assumptions C280_partial.
(* positions on a line, the phase angle is their difference and the magnitude their sum with H *)
Definition line_ok (p q : Z) : bool := negb (Z.eqb p q).
Definition line_mag (h : Q) (p q : Z) (g : Q) : option Q := Some (h + inject_Z p + inject_Z q)%Q.
Definition line_phase (p q : Z) : option Q := Some (inject_Z (p - q)).
Definition no_rescale (a b : string) (t : Z * Z) : Z * Z := t.
Definition mk_hg (i : string) : hgrow := mk_orb i None None.
Notation on_line := (attach no_rescale line_ok line_mag line_phase).
Definition site (c : string) (d : Z) (p : Z) : @obsr Z := mk_obsr c d 0 (Some p).
Definition sight (i c : string) (d : Z) (p : option Z) : @erow Z Q := mk_erow i c d 0 p None None.
(* a code with a bar in it, and the rows in another order than the observers *)
Example C278_case : exists out, on_line true true "utc" "utc" [mk_orb "a" (Some 20%Q) (Some (15 # 100)%Q); mk_orb "b" None None] [site "500" 1 1; site "500|1" 1 2]
    [sight "a" "500|1" 1 (Some 7%Z); sight "b" "500" 1 (Some 9%Z)] = Ok out
  /\ map e_alpha out = [Some 5%Q; Some 8%Q] /\ map e_mag out = [Some (20 + inject_Z 7 + inject_Z 2)%Q; None].
Proof. eexists. split; [vm_compute; reflexivity|]. split; reflexivity. Qed.
(* with an absolute magnitude the same query fails: for an observer given twice, and for a row without aberrated coordinates *)
Theorem C280_refuted :
  (exists observers eph, on_line true false "utc" "utc" [mk_orb "a" None None] observers eph = Ok eph
     /\ on_line true false "utc" "utc" [mk_orb "a" (Some 20%Q) (Some (15 # 100)%Q)] observers eph = Err ValueError
     /\ forall e, In e eph -> exists o p q, In o observers /\ seen line_ok o e p q)
  /\ (exists observers eph, on_line true false "utc" "utc" [mk_orb "a" None None] observers eph = Ok eph
     /\ on_line true false "utc" "utc" [mk_orb "a" (Some 20%Q) (Some (15 # 100)%Q)] observers eph = Err ValueError /\ apart observers).
Proof.
  split.
  - exists [site "500" 1 1; site "500" 1 1], [sight "a" "500" 1 (Some 7%Z)]. split; [vm_compute; reflexivity|]. split; [vm_compute; reflexivity|].
    intros e [<-|[]]. exists (site "500" 1 1), 7%Z, 1%Z. split; [left; reflexivity|]. repeat split.
  - exists [site "500" 1 1; site "600" 1 1], [sight "a" "500" 1 (Some 7%Z); sight "a" "600" 1 None]. split; [vm_compute; reflexivity|]. split; [vm_compute; reflexivity|].
    intros [|[|i]] [|[|j]] a b A B; cbn in A, B; try (destruct i; discriminate); try (destruct j; discriminate); try reflexivity; injection A as <-; injection B as <-; discriminate.
Qed.
Print Assumptions C280_refuted.

(* one chunk whose rows have no aberrated coordinates: the chunks succeed and the whole is refused *)
Theorem C283_refuted : exists (chunks : list (list hgrow * list (@erow Z Q))) observers outs,
  mapM (fun c => on_line false true "utc" "utc" (fst c) observers (snd c)) chunks = Ok outs
  /\ on_line false true "utc" "utc" (concat (map fst chunks)) observers (concat (map snd chunks)) = Err ValueError.
Proof.
  exists [([mk_hg "a"], [sight "a" "500" 1 (Some 7%Z)]); ([mk_hg "b"], [sight "b" "500" 1 None])], [site "500" 1 1].
  eexists. split; [vm_compute; reflexivity|vm_compute; reflexivity].
Qed.
Print Assumptions C283_refuted.
(* two chunks, the second one without parameters *)
Example C283_case : exists out, on_line true true "utc" "utc" [mk_orb "a" (Some 20%Q) (Some 0%Q); mk_hg "b"] [site "500" 1 1] [sight "a" "500" 1 (Some 7%Z); sight "b" "500" 1 (Some 9%Z)] = Ok out
  /\ mapM (fun c => on_line true true "utc" "utc" (fst c) [site "500" 1 1] (snd c))
       [([mk_orb "a" (Some 20%Q) (Some 0%Q)], [sight "a" "500" 1 (Some 7%Z)]); ([mk_hg "b"], [sight "b" "500" 1 (Some 9%Z)])] = Ok [firstn 1 out; skipn 1 out].
Proof. eexists. split; [vm_compute; reflexivity|vm_compute; reflexivity]. Qed.

(* ---- C281 ---- *)
(* the parameters of a row are those of the rows of its identifier that have both; different ones are refused *)
Theorem C281 : forall os ids,
  (forall r, hg_params os ids = Ok r -> agreeing os /\ List.length r = List.length ids
     /\ forall i id x, nth_error ids i = Some id -> nth_error r i = Some x ->
        match x with Some (h, g) => (exists h' g', has_param os id h' g') /\ forall h' g', has_param os id h' g' -> (h == h')%Q /\ (g == g')%Q
                   | None => forall h g, ~ has_param os id h g end)
  /\ (forall e, hg_params os ids = Err e -> e = ValueError /\ ~ agreeing os).
Proof.
  intros os ids. split; [|exact (hg_err os ids)]. intros r H. apply hg_ok in H as [A F]. split; [exact A|]. split; [symmetry; eapply Forall2_length; exact F|].
  intros i id x I X. exact (nth_forall2 _ _ _ _ _ _ _ _ F I X).
Qed.
Print Assumptions C281.
Example C281_case : hg_params [mk_orb "a" (Some 20%Q) (Some (15 # 100)%Q); mk_orb "a" None None; mk_orb "b" None (Some 0%Q)] ["b"; "a"; "c"] = Ok [None; Some (20, 15 # 100)%Q; None]
  /\ hg_params [mk_orb "a" (Some 20%Q) (Some 0%Q); mk_orb "a" (Some 21%Q) (Some 0%Q)] ["b"] = Err ValueError.
Proof. split; reflexivity. Qed.

(* ---- C282 ---- *)
(* for any order on texts the two alignments succeed on the same tables, with the same indices *)
Theorem C282_partial : forall leb, (forall a b, leb a b = true \/ leb b a = true) -> (forall a b c, leb a b = true -> leb b c = true -> leb a c = true) ->
  (forall a b, leb a b = true -> leb b a = true -> a = b) ->
  forall obs_keys eph_keys idx, align_sorted leb obs_keys eph_keys = Ok idx <-> align obs_keys eph_keys = Ok idx.
Proof. exact sorted_same. Qed.
Print Assumptions C282_partial.
Fixpoint before (s t : string) : bool :=
  match s, t with
  | EmptyString, _ => true
  | String _ _, EmptyString => false
  | String a r, String b u => (N_of_ascii a <? N_of_ascii b)%N || (Ascii.eqb a b && before r u)
  end.
(* the order of code points is such an order *)
Example C282_case : (forall a b, before a b = true \/ before b a = true) /\ (forall a b c, before a b = true -> before b c = true -> before a c = true)
  /\ (forall a b, before a b = true -> before b a = true -> a = b) /\ align_sorted before ["600|1|0"; "500|1|0"] ["500|1|0"; "600|1|0"; "500|1|0"] = Ok [1; 0; 1].
Proof.
  assert (Ne : forall a b, a <> b -> N_of_ascii a <> N_of_ascii b) by (intros a b H E; apply H; rewrite <- (ascii_N_embedding a), <- (ascii_N_embedding b), E; reflexivity).
  split; [|split; [|split; [|vm_compute; reflexivity]]].
  - induction a as [|x a IH]; intros [|y b]; cbn; try (left; reflexivity); try (right; reflexivity). destruct (Ascii.eqb_spec x y) as [->|Z].
    + rewrite Ascii.eqb_refl. destruct (IH b) as [->| ->]; [left|right]; cbn; apply orb_true_r.
    + apply Ne in Z. destruct (N.lt_total (N_of_ascii x) (N_of_ascii y)) as [L|[L|L]]; [left|contradiction|right]; apply N.ltb_lt in L; rewrite L; reflexivity.
  - induction a as [|x a IH]; intros [|y b] [|z c] A B; cbn in *; try reflexivity; try discriminate. apply orb_true_iff in A, B. apply orb_true_iff.
    destruct A as [A|A], B as [B|B].
    + left. apply N.ltb_lt in A, B. apply N.ltb_lt. lia.
    + apply andb_prop in B as [B _]. apply Ascii.eqb_eq in B. subst z. left. exact A.
    + apply andb_prop in A as [A _]. apply Ascii.eqb_eq in A. subst y. left. exact B.
    + apply andb_prop in A as [A1 A2]. apply andb_prop in B as [B1 B2]. apply Ascii.eqb_eq in A1, B1. subst y z. right. rewrite Ascii.eqb_refl. exact (IH b c A2 B2).
  - induction a as [|x a IH]; intros [|y b] A B; cbn in *; try reflexivity; try discriminate. apply orb_true_iff in A, B. destruct A as [A|A], B as [B|B].
    + apply N.ltb_lt in A, B. lia.
    + apply andb_prop in B as [B _]. apply Ascii.eqb_eq in B. subst y. apply N.ltb_lt in A. lia.
    + apply andb_prop in A as [A _]. apply Ascii.eqb_eq in A. subst y. apply N.ltb_lt in B. lia.
    + apply andb_prop in A as [A1 A2]. apply andb_prop in B as [_ B2]. apply Ascii.eqb_eq in A1. subst y. rewrite (IH b A2 B2). reflexivity.
Qed.
(* a row after all observers: one alignment fails with ValueError, the other with IndexError *)
Theorem C282_refuted : exists obs_keys eph_keys, align obs_keys eph_keys = Err ValueError /\ align_sorted before obs_keys eph_keys = Err IndexError.
Proof. exists ["500|1|0"], ["600|1|0"]. split; reflexivity. Qed.
Print Assumptions C282_refuted.
