(* Lemmas about SpiModel.v. *)
From Coq Require Import String ZArith QArith List Bool Lia.
From Verif Require Import Base TimeModel CacheModel CacheSpec CacheProofs CacheProps SpiModel SpiSpec.
Import ListNotations.
Open Scope string_scope.
Open Scope list_scope.

Lemma has_k_In k l : has_k k l = true <-> In k l.
Proof.
  unfold has_k. rewrite existsb_exists. split.
  - intros (x & Hx & E). apply String.eqb_eq in E. subst. exact Hx.
  - intros H. exists k. split; auto. apply String.eqb_refl.
Qed.
Lemma has_k_not k l : has_k k l = false <-> ~ In k l.
Proof. rewrite <- has_k_In. destruct (has_k k l); split; congruence. Qed.
Lemma has_pid pid (e : list Z) : existsb (Z.eqb pid) e = true <-> In pid e.
Proof.
  rewrite existsb_exists. split.
  - intros (x & Hx & E). apply Z.eqb_eq in E. subst. exact Hx.
  - intros H. exists pid. split; auto. apply Z.eqb_refl.
Qed.

Lemma default_is k : In k default_kernels <-> is_default k.
Proof. unfold default_kernels, is_default. cbn [In]. intuition congruence. Qed.
Definition req (ks : option (list string)) : list string := match ks with None => default_kernels | Some l => l end.
Lemma req_is ks k : In k (req ks) <-> requested ks k.
Proof. destruct ks; cbn. tauto. apply default_is. Qed.

(* what SPICE holds is what is registered, once *)
Definition good (p : proc) : Prop := NoDup (pool p) /\ forall k, In k (pool p) <-> In k (reg p).

Lemma nodup_snoc {A} (l : list A) x : NoDup l -> ~ In x l -> NoDup (l ++ [x]).
Proof.
  intros N H. apply NoDup_rev in N. rewrite <- (rev_involutive (l ++ [x])). apply NoDup_rev. rewrite rev_app_distr. cbn.
  constructor; auto. rewrite <- in_rev. exact H.
Qed.

Lemma register_good ok p k : good p -> good (fst (register ok p k)).
Proof.
  intros [N S]. unfold register. destruct (has_k k (reg p)) eqn:H; [split; assumption|].
  destruct (ok k); [|split; assumption]. apply has_k_not in H. split; cbn.
  - apply nodup_snoc; auto. rewrite S. exact H.
  - intros x. rewrite in_app_iff. cbn. rewrite S. intuition.
Qed.

Lemma unload_first_notin k l : ~ In k l -> unload_first k l = l.
Proof.
  induction l as [|x l IH]; cbn; intros H; auto. destruct (String.eqb_spec k x) as [->|]; [exfalso; auto|]. rewrite IH; tauto.
Qed.
Lemma unload_first_ok k l : NoDup l -> NoDup (unload_first k l) /\ forall x, In x (unload_first k l) <-> In x l /\ x <> k.
Proof.
  induction l as [|y l IH]; intros N; cbn. split; [constructor|tauto].
  inversion N as [|? ? N1 N2]; subst. destruct (IH N2) as [M I].
  destruct (String.eqb_spec k y) as [->|D].
  - split; auto. intros x. split.
    + intros Hx. split; auto. intros ->. auto.
    + intros [[->|Hx] Ne]; auto. contradiction.
  - split.
    + constructor; auto. rewrite I. tauto.
    + intros x. cbn. rewrite I. intuition congruence.
Qed.
Lemma unload_ok k l : NoDup l -> NoDup (unload k l) /\ forall x, In x (unload k l) <-> In x l /\ x <> k.
Proof.
  intros N. unfold unload. destruct (unload_first_ok k (rev l) (NoDup_rev N)) as [M I]. split.
  - apply NoDup_rev. exact M.
  - intros x. rewrite <- in_rev, I, <- in_rev. tauto.
Qed.

Lemma unregister_ok p k : good p -> good (unregister p k) /\ forall x, In x (pool (unregister p k)) <-> In x (pool p) /\ x <> k.
Proof.
  intros [N S]. unfold unregister. destruct (has_k k (reg p)) eqn:H.
  - destruct (unload_ok k (pool p) N) as [M I]. split; [split|]; cbn; auto.
    intros x. rewrite I, filter_In, S. destruct (String.eqb_spec k x); cbn; intuition congruence.
  - apply has_k_not in H. rewrite <- S in H. split; [split; assumption|]. intros x. split; [|tauto]. intros Hx. split; auto. intros ->. auto.
Qed.

Lemma register_ok ok p k : good p ->
  match register ok p k with
  | (p1, None) => In k (pool p1) /\ env p1 = env p /\ (In k (pool p) \/ ok k = true) /\ exists more, pool p1 = pool p ++ more /\ incl more [k]
  | (p1, Some e) => p1 = p /\ e = RuntimeError /\ ~ In k (pool p) /\ ok k = false
  end.
Proof.
  intros [N S]. unfold register. destruct (has_k k (reg p)) eqn:H.
  - apply has_k_In in H. rewrite <- S in H. repeat split; auto. exists []. rewrite app_nil_r. split; auto. intros x [].
  - apply has_k_not in H. rewrite <- S in H. destruct (ok k) eqn:O.
    + cbn. split; [apply in_app_iff; cbn; auto|]. repeat split; auto. exists [k]. split; auto. apply incl_refl.
    + auto.
Qed.

Lemma register_all_ok ok ks : forall p, good p ->
  match register_all ok p ks with
  | (p1, None) => good p1 /\ incl ks (pool p1) /\ env p1 = env p /\ (forall k, In k ks -> In k (pool p) \/ ok k = true)
                  /\ exists more, pool p1 = pool p ++ more /\ incl more ks
  | (p1, Some e) => good p1 /\ e = RuntimeError /\ env p1 = env p /\ (exists k, In k ks /\ ~ In k (pool p1) /\ ok k = false)
                  /\ exists more, pool p1 = pool p ++ more /\ incl more ks
  end.
Proof.
  induction ks as [|k ks IH]; intros p G; cbn [register_all].
  - split; auto. split; [intros x []|]. split; auto. split; [intros x []|]. exists []. rewrite app_nil_r. split; auto. intros x [].
  - pose proof (register_ok ok p k G) as R. pose proof (register_good ok p k G) as G1.
    destruct (register ok p k) as [p1 [e|]]; cbn [fst] in G1.
    + destruct R as (-> & -> & R1 & R2). split; auto. split; auto. split; auto. split.
      * exists k. cbn. auto.
      * exists []. rewrite app_nil_r. split; auto. intros x [].
    + destruct R as (R1 & R2 & R3 & m & R4 & R5). specialize (IH p1 G1). destruct (register_all ok p1 ks) as [p2 [e|]].
      * destruct IH as (I1 & I2 & I3 & (x & X1 & X2 & X3) & m' & I4 & I5). split; auto. split; auto. split; [congruence|]. split.
        -- exists x. cbn. auto.
        -- exists (m ++ m'). split. rewrite I4, R4, app_assoc. reflexivity.
           intros y Hy. apply in_app_iff in Hy. destruct Hy as [Hy|Hy]. apply R5 in Hy. cbn in *. tauto. right. apply I5. exact Hy.
      * destruct IH as (I1 & I2 & I3 & I6 & m' & I4 & I5). split; auto. split.
        { intros y [->|Hy]; auto. rewrite I4. apply in_app_iff. auto. }
        split; [congruence|]. split.
        { intros y [->|Hy]; auto. destruct (I6 y Hy) as [Hp|]; auto. rewrite R4 in Hp. apply in_app_iff in Hp. destruct Hp as [Hp|Hp]; auto.
          apply R5 in Hp. destruct Hp as [->|[]]. exact R3. }
        exists (m ++ m'). split. rewrite I4, R4, app_assoc. reflexivity.
        intros y Hy. apply in_app_iff in Hy. destruct Hy as [Hy|Hy]. apply R5 in Hy. cbn in *. tauto. right. apply I5. exact Hy.
Qed.

Lemma setup_good ok pid ks force p : good p -> good (fst (setup ok pid ks force p)).
Proof.
  intros G. unfold setup. destruct (existsb (Z.eqb pid) (env p) && negb force); auto.
  pose proof (register_all_ok ok (req ks) p G) as R. unfold req in R.
  destruct (register_all ok p _) as [p1 [e|]]; cbn; [apply R|]. destruct R as [[N S] _]. split; assumption.
Qed.

(* an invariant of single processes that all calls and a fresh process keep *)
Lemma run_good l : forall w, (forall q p, w q = Some p -> good p) -> forall q p, run w l q = Some p -> good p.
Proof.
  induction l as [|a l IH]; intros w H q p E; [exact (H q p E)|]. refine (IH (step w a) _ q p E). clear q p E.
  intros q p. destruct a as [i ks f ok|i k ok|i k|i j|i j|i]; cbn [step].
  - destruct (w i) as [x|] eqn:Ei; [|apply H]. unfold upd. destruct (Z.eqb q i); [|apply H]. intros [= <-]. apply setup_good. exact (H i x Ei).
  - destruct (w i) as [x|] eqn:Ei; [|apply H]. unfold upd. destruct (Z.eqb q i); [|apply H]. intros [= <-]. apply register_good. exact (H i x Ei).
  - destruct (w i) as [x|] eqn:Ei; [|apply H]. unfold upd. destruct (Z.eqb q i); [|apply H]. intros [= <-]. apply unregister_ok. exact (H i x Ei).
  - destruct (w i) as [x|] eqn:Ei; [|apply H]. destruct (w j); [apply H|]. unfold upd. destruct (Z.eqb q j); [|apply H]. intros [= <-]. exact (H i x Ei).
  - destruct (w i) as [x|] eqn:Ei; [|apply H]. destruct (w j); [apply H|]. unfold upd. destruct (Z.eqb q j); [|apply H]. intros [= <-].
    split; cbn. constructor. tauto.
  - unfold upd. destruct (Z.eqb q i); [discriminate|apply H].
Qed.
Lemma start_good pid e q p : start pid e q = Some p -> good p.
Proof. unfold start, upd. destruct (Z.eqb q pid); [|discriminate]. intros [= <-]. split; cbn. constructor. tauto. Qed.
Lemma reach_good pid e l q p : run (start pid e) l q = Some p -> good p.
Proof. apply run_good. intros. eapply start_good. eassumption. Qed.

(* a mark means the default kernels are there, and only numbers in use are marked *)
Definition marked (used : list Z) (w : world) : Prop := forall q p, w q = Some p ->
  good p /\ In q used /\ incl (env p) used /\ (In q (env p) -> incl default_kernels (pool p)).

Lemma step_marked used w a r : marked used w -> keeps_defaults a -> new_numbers used (a :: r) ->
  exists used', marked used' (step w a) /\ new_numbers used' r.
Proof.
  intros M K Nn. destruct a as [i ks f ok|i k ok|i k|i j|i j|i]; cbn [step]; cbn in Nn, K.
  - exists used. split; auto. destruct (w i) as [x|] eqn:Ei; auto. intros q p. unfold upd. destruct (Z.eqb_spec q i) as [->|]; [|apply M].
    intros [= <-]. destruct (M i x Ei) as (G & U & I & D). split; [apply setup_good; exact G|]. split; auto. unfold setup.
    destruct (existsb (Z.eqb i) (env x) && negb f); cbn [fst]; auto.
    pose proof (register_all_ok ok (req ks) x G) as R. unfold req in R. destruct (register_all ok x _) as [p1 [e|]]; cbn [fst].
    + destruct R as (R1 & _ & R2 & _ & m & R3 & _). rewrite R2. split; auto. intros Hi y Hy. rewrite R3. apply in_app_iff. left. apply D; auto.
    + destruct R as (R1 & R0 & R2 & _). cbn. rewrite R2. split.
      * intros y [<-|Hy]; auto.
      * intros _ y Hy. apply R0. apply default_is in Hy. apply K in Hy. apply req_is in Hy. exact Hy.
  - exists used. split; auto. destruct (w i) as [x|] eqn:Ei; auto. intros q p. unfold upd. destruct (Z.eqb_spec q i) as [->|]; [|apply M].
    intros [= <-]. destruct (M i x Ei) as (G & U & I & D). split; [apply register_good; exact G|]. split; auto.
    pose proof (register_ok ok x k G) as R. destruct (register ok x k) as [p1 [e|]]; cbn [fst].
    + destruct R as (-> & _). auto.
    + destruct R as (_ & R2 & _ & m & R3 & _). rewrite R2. split; auto. intros Hi y Hy. rewrite R3. apply in_app_iff. left. apply D; auto.
  - exists used. split; auto. destruct (w i) as [x|] eqn:Ei; auto. intros q p. unfold upd. destruct (Z.eqb_spec q i) as [->|]; [|apply M].
    intros [= <-]. destruct (M i x Ei) as (G & U & I & D). destruct (unregister_ok x k G) as [G1 P]. split; auto. split; auto.
    assert (Ee : env (unregister x k) = env x) by (unfold unregister; destruct (has_k k (reg x)); reflexivity).
    rewrite Ee. split; auto. intros Hi y Hy. apply P. split; [apply D; auto|]. intros ->. apply K. apply default_is. exact Hy.
  - destruct Nn as [Nj Nn]. exists (j :: used). split; auto.
    assert (M' : marked (j :: used) w).
    { intros q p E. destruct (M q p E) as (G & U & I & D). split; auto. split; [right; auto|]. split; auto. intros y Hy. right. auto. }
    destruct (w i) as [x|] eqn:Ei; auto. destruct (w j) eqn:Ej; auto. intros q p. unfold upd. destruct (Z.eqb_spec q j) as [->|]; [|apply M'].
    intros [= <-]. destruct (M i x Ei) as (G & U & I & D). split; auto. split; [left; auto|]. split; [intros y Hy; right; auto|].
    intros Hj. exfalso. apply Nj. apply I. exact Hj.
  - destruct Nn as [Nj Nn]. exists (j :: used). split; auto.
    assert (M' : marked (j :: used) w).
    { intros q p E. destruct (M q p E) as (G & U & I & D). split; auto. split; [right; auto|]. split; auto. intros y Hy. right. auto. }
    destruct (w i) as [x|] eqn:Ei; auto. destruct (w j) eqn:Ej; auto. intros q p. unfold upd. destruct (Z.eqb_spec q j) as [->|]; [|apply M'].
    intros [= <-]. destruct (M i x Ei) as (G & U & I & D). split; [split; cbn; [constructor|tauto]|]. split; [left; auto|]. cbn. split; [intros y Hy; right; auto|].
    intros Hj. exfalso. apply Nj. apply I. exact Hj.
  - exists used. split; auto. intros q p. unfold upd. destruct (Z.eqb q i); [discriminate|apply M].
Qed.

Lemma run_marked l : forall used w, marked used w -> Forall keeps_defaults l -> new_numbers used l -> exists used', marked used' (run w l).
Proof.
  induction l as [|a l IH]; intros used w M K Nn. exists used. exact M.
  inversion K; subst. destruct (step_marked used w a l M) as (u & M1 & N1); auto. exact (IH u (step w a) M1 H2 N1).
Qed.

(* ---- body states ---- *)
Lemma spice_frame_ok frame f : spice_frame frame = Ok f <-> frame_named frame f.
Proof.
  unfold spice_frame, frame_named. destruct (String.eqb_spec frame "ecliptic") as [->|A].
  { split. intros [= <-]. auto. intros [[_ ->]|[[X _]|[X _]]]; [reflexivity|discriminate|discriminate]. }
  destruct (String.eqb_spec frame "equatorial") as [->|B].
  { split. intros [= <-]. auto. intros [[X _]|[[_ ->]|[X _]]]; [discriminate|reflexivity|discriminate]. }
  destruct (String.eqb_spec frame "itrf93") as [->|C].
  { split. intros [= <-]. auto. intros [[X _]|[[X _]|[_ ->]]]; [discriminate|discriminate|reflexivity]. }
  split. discriminate. intros [[X _]|[[X _]|[X _]]]; contradiction.
Qed.
Lemma spice_frame_err frame e : spice_frame frame = Err e -> e = ValueError.
Proof. unfold spice_frame. repeat destruct (String.eqb _ _); congruence. Qed.

Section B.
  Context {T E : Type} (et : T -> E) (E_eqb : E -> E -> bool) (spkez : Z -> E -> string -> Z -> option (list Q)).
  Hypothesis eqb_ok : forall a b, E_eqb a b = true <-> a = b.

  Lemma fill_map (g : E -> option (list Q)) ets e s :
    fill E_eqb ets e s (map g ets) = map (fun x => if E_eqb x e then Some s else g x) ets.
  Proof. unfold fill. induction ets as [|x r IH]; cbn; auto. f_equal. exact IH. Qed.

  Lemma body_loop_ok body f o ets us : forall g,
    match body_loop E_eqb spkez body f o ets us (map g ets) with
    | Ok st => st = map (fun x => if existsb (E_eqb x) us then spkez body x f o else g x) ets /\ (forall u, In u us -> spkez body u f o <> None)
    | Err e => e = ValueError /\ exists u, In u us /\ spkez body u f o = None
    end.
  Proof.
    induction us as [|u us IH]; intros g; cbn [body_loop]. split; [reflexivity|intros u []].
    destruct (spkez body u f o) as [s|] eqn:Su; [|split; [reflexivity|exists u; cbn; auto]].
    rewrite fill_map. specialize (IH (fun x => if E_eqb x u then Some s else g x)).
    destruct (body_loop E_eqb spkez body f o ets us _) as [st|e].
    - destruct IH as [-> I]. split.
      + apply map_ext. intros x. cbn. destruct (E_eqb x u) eqn:X; cbn.
        * apply eqb_ok in X. subst. rewrite Su. destruct (existsb _ us); reflexivity.
        * reflexivity.
      + intros y [->|Hy]; auto. congruence.
    - destruct IH as (-> & y & Y1 & Y2). split; auto. exists y. cbn. auto.
  Qed.

  Lemma body_ok body times frame o :
    match get_spice_body_state et E_eqb spkez body times frame o with
    | Ok t => exists f, frame_named frame f /\ st_rows t = map (fun x => (x, option_map to_au (spkez body (et x) f o))) times
                /\ st_frame t = frame /\ st_origin t = repeat o (List.length times) /\ (forall x, In x times -> spkez body (et x) f o <> None)
    | Err e => e = ValueError /\ ((forall f, ~ frame_named frame f)
                 \/ exists f x, frame_named frame f /\ In x times /\ spkez body (et x) f o = None)
    end.
  Proof.
    unfold get_spice_body_state. destruct (spice_frame frame) as [f|e] eqn:F; cbn [bind].
    2:{ split. eapply spice_frame_err. exact F. left. intros f H. apply spice_frame_ok in H. congruence. }
    apply spice_frame_ok in F.
    replace (map (fun _ : T => @None (list Q)) times) with (map (fun _ : E => @None (list Q)) (map et times)) by (rewrite map_map; reflexivity).
    pose proof (body_loop_ok body f o (map et times) (uniq E_eqb (map et times)) (fun _ => None)) as B.
    assert (UI : forall x, In x (uniq E_eqb (map et times)) <-> In x (map et times)) by (apply uniq_In; exact eqb_ok).
    destruct (body_loop _ _ _ _ _ _ _ _) as [st|e]; cbn [bind].
    - destruct B as [-> B]. exists f. split; auto. cbn. split; [|split; [reflexivity|split; [reflexivity|]]].
      + assert (G : forall l, incl l times -> combine l (map (option_map to_au) (map (fun x => if existsb (E_eqb x) (uniq E_eqb (map et times)) then spkez body x f o else None) (map et l)))
                     = map (fun x => (x, option_map to_au (spkez body (et x) f o))) l).
        { induction l as [|x l IH]; intros Hl; cbn; auto. f_equal; [|apply IH; intros y Hy; apply Hl; right; exact Hy].
          f_equal. replace (existsb (E_eqb (et x)) (uniq E_eqb (map et times))) with true; auto. symmetry. apply existsb_exists.
          exists (et x). split; [|apply eqb_ok; reflexivity]. apply UI. apply in_map. apply Hl. left. reflexivity. }
        apply G. apply incl_refl.
      + intros x Hx. apply B. apply UI. apply in_map. exact Hx.
    - destruct B as (-> & u & U1 & U2). split; auto. right. apply UI in U1. apply in_map_iff in U1. destruct U1 as (x & <- & Hx). eauto.
  Qed.
End B.
