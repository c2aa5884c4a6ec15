From Coq Require Import QArith ZArith String List Bool Lia DecimalString Ascii.
From Verif Require Import Base ListLemmas ResModel TimeModel SbdbModel SbdbSpec SbdbProofs ScoutModel ScoutSpec.
Import ListNotations.
Open Scope string_scope.
Open Scope list_scope.
Open Scope nat_scope.

Lemma failing_bool s : (400 <=? s)%Z && (s <? 600)%Z = true <-> failing s.
Proof. unfold failing. rewrite andb_true_iff, Z.leb_le, Z.ltb_lt. tauto. Qed.
Lemma retry_bool s : retryable (Some s) = true <-> busy s.
Proof. unfold busy, retryable. rewrite orb_true_iff, Z.eqb_eq, Z.leb_le. tauto. Qed.
Lemma again r : momentary r <-> exists st, ask r = Failure st /\ retryable st = true.
Proof.
  destruct r as [|s b]; cbn [momentary ask]; [split; [exists None; auto|auto]|].
  destruct ((400 <=? s)%Z && (s <? 600)%Z) eqn:F.
  - apply failing_bool in F. split.
    + intros [[_ B]|[N _]]; [|contradiction]. exists (Some s). split; [reflexivity|now apply retry_bool].
    + intros (st & [= <-] & R). left. split; [exact F|now apply retry_bool].
  - assert (N : ~ failing s) by (rewrite <- failing_bool; congruence). split.
    + intros [[F' _]|[_ ->]]; [contradiction|]. exists None. auto.
    + intros (st & E & R). right. split; [exact N|]. destruct b; [discriminate|reflexivity].
Qed.
Lemma loop_char delay server : forall left attempt o n w, request_loop delay server left attempt = (o, n, w) ->
  attempt < n <= attempt + left + 1 /\ (forall i, attempt <= i -> i + 1 < n -> momentary (server i)) /\
  o = ask (server (n - 1)) /\ (n = attempt + left + 1 \/ ~ momentary (server (n - 1))) /\
  w = map (fun k => delay * inject_Z (2 ^ Z.of_nat k))%Q (seq attempt (n - 1 - attempt)).
Proof.
  induction left as [|left IH]; intros attempt o n w H; cbn [request_loop] in H; destruct (ask (server attempt)) as [j|st] eqn:A.
  - injection H as <- <- <-. rewrite Nat.add_sub. split; [lia|]. split; [intros; lia|]. split; [congruence|]. split; [left; lia|]. now rewrite Nat.sub_diag.
  - assert (E : (Failure st, attempt + 1, []) = (o, n, w)) by (destruct (negb (retryable st)); exact H). injection E as <- <- <-. rewrite Nat.add_sub.
    split; [lia|]. split; [intros; lia|]. split; [congruence|]. split; [left; lia|]. now rewrite Nat.sub_diag.
  - injection H as <- <- <-. rewrite Nat.add_sub. split; [lia|]. split; [intros; lia|]. split; [congruence|]. split; [|now rewrite Nat.sub_diag].
    right. intro M. apply again in M. destruct M as (st & E & _). congruence.
  - destruct (retryable st) eqn:R; cbn [negb] in H.
    + destruct (request_loop delay server left (attempt + 1)) as [[o' n'] w'] eqn:E. injection H as <- <- <-.
      destruct (IH _ _ _ _ E) as (L & M & -> & D & ->). split; [lia|]. split.
      { intros i L1 L2. destruct (Nat.eq_dec i attempt) as [->|N]; [apply again; now exists st|apply M; lia]. }
      split; [reflexivity|]. split; [destruct D as [D|D]; [left; lia|right; exact D]|].
      replace (n' - 1 - attempt) with (Datatypes.S (n' - 1 - (attempt + 1))) by lia. cbn [seq map]. rewrite Nat.add_1_r. reflexivity.
    + injection H as <- <- <-. rewrite Nat.add_sub. split; [lia|]. split; [intros; lia|]. split; [congruence|]. split; [|now rewrite Nat.sub_diag].
      right. intro M. apply again in M. destruct M as (st' & E & R'). congruence.
Qed.

Lemma prefix_within t s : String.prefix t s = true -> exists b, s = (t ++ b)%string.
Proof.
  revert s. induction t as [|c t IH]; intros s H; [now exists s|]. destruct s as [|d s]; [discriminate|]. cbn in H.
  destruct (ascii_dec c d) as [->|]; [|discriminate]. destruct (IH s H) as [b ->]. now exists b.
Qed.
Lemma prefix_app t b : String.prefix t (t ++ b)%string = true.
Proof. induction t as [|c t IH]; cbn; [now destruct b|]. destruct (ascii_dec c c); [exact IH|congruence]. Qed.
Lemma token_within t s : token_in t s = true <-> within t s.
Proof.
  split.
  - induction s as [|c s IH]; cbn [token_in]; rewrite orb_true_iff.
    + intros [H|H]; [|discriminate]. apply prefix_within in H. destruct H as [b H]. exists ""%string, b. exact H.
    + intros [H|H]; [apply prefix_within in H; destruct H as [b H]; exists ""%string, b; exact H|].
      destruct (IH H) as (a & b & ->). exists (String c a), b. reflexivity.
  - intros (a & b & ->). induction a as [|c a IH].
    + cbn [append]. destruct (t ++ b)%string eqn:E; cbn [token_in]; rewrite <- E, prefix_app; reflexivity.
    + cbn [append token_in]. rewrite IH. apply orb_true_r.
Qed.
Lemma mentions_bool ts s : existsb (fun t => token_in t s) ts = true <-> mentions ts s.
Proof. rewrite existsb_exists. unfold mentions. split; intros (t & I & H); exists t; (split; [exact I|]); now apply token_within. Qed.

Lemma request_char max_attempts delay server o n w : request_scout_json max_attempts delay server = (o, n, w) ->
  (1 <= Z.of_nat n <= Z.max 1 max_attempts)%Z /\ (forall i, i + 1 < n -> momentary (server i)) /\ o = ask (server (n - 1)) /\
  (Z.of_nat n = Z.max 1 max_attempts \/ ~ momentary (server (n - 1))) /\ w = map (fun k => delay * inject_Z (2 ^ Z.of_nat k))%Q (seq 0 (n - 1)).
Proof.
  intro H. apply loop_char in H. destruct H as (L & M & E & D & W). split; [lia|]. split; [intros i Hi; apply M; lia|]. split; [exact E|].
  split; [destruct D as [D|D]; [left; lia|now right]|]. now rewrite Nat.sub_0_r in W.
Qed.
Lemma object_answer text fold server max_attempts delay object :
  exists n, (1 <= Z.of_nat n <= Z.max 1 max_attempts)%Z /\ (forall i, i + 1 < n -> momentary (server object i)) /\
    (Z.of_nat n = Z.max 1 max_attempts \/ ~ momentary (server object (n - 1))) /\
    answer text fold object (server object (n - 1)) (object_json text fold server max_attempts delay object).
Proof.
  unfold object_json. destruct (request_scout_json max_attempts delay (server object)) as [[o n] w] eqn:E. cbn [fst].
  apply request_char in E. destruct E as (L & M & -> & D & _). exists n. split; [exact L|]. split; [exact M|]. split; [exact D|].
  destruct (server object (n - 1)) as [|s b]; cbn [ask]; [constructor|].
  destruct ((400 <=? s)%Z && (s <? 600)%Z) eqn:F.
  - apply failing_bool in F. destruct (Z.eqb_spec s 404) as [->|N]; [constructor|].
    destruct (retryable (Some s)) eqn:R; [apply a_busy; [exact F|now apply retry_bool]|].
    apply a_http; [exact F| |exact N]. intro B. apply retry_bool in B. congruence.
  - assert (N : ~ failing s) by (rewrite <- failing_bool; congruence). destruct b as [j|]; [|now apply a_body].
    destruct j as [| | | | |p]; try (apply a_type; [exact N|congruence]).
    destruct (truthy (get "error" p)) eqn:T; [|now apply a_ok]. cbv zeta.
    destruct (existsb (fun t => token_in t (fold (str_of_json text (get "error" p)))) gone_tokens) eqn:G.
    + apply a_gone; auto. now apply mentions_bool in G.
    + assert (G' : ~ mentions gone_words (fold (str_of_json text (get "error" p)))). { intro X. apply mentions_bool in X. change gone_words with gone_tokens in X. congruence. }
      destruct (existsb (fun t => token_in t (fold (str_of_json text (get "error" p)))) busy_tokens) eqn:B.
      * apply a_later; auto. now apply mentions_bool in B.
      * apply a_error; auto. intro X. apply mentions_bool in X. change busy_words with busy_tokens in X. congruence.
Qed.
Lemma object_delivers text fold server max_attempts delay object p : object_json text fold server max_attempts delay object = SOk p ->
  forall sg, signature text object p = SOk sg -> delivers text max_attempts (server object) p sg.
Proof.
  intros H sg S. destruct (object_answer text fold server max_attempts delay object) as (n & L & M & _ & A). rewrite H in A.
  inversion A; subst. split; [|split; [assumption|]].
  - exists (n - 1), s. split; [lia|]. split; [intros i Hi; apply M; lia|]. split; [congruence|assumption].
  - unfold signature in S. destruct (get "signature" p) as [| | | | |g]; try discriminate. destruct (String.eqb_spec (str_of_json text (get "version" g)) "1.3"); [|discriminate]. injection S as <-. auto.
Qed.
Lemma delivered text fold server max_attempts delay object p sg : delivers text max_attempts (server object) p sg ->
  object_json text fold server max_attempts delay object = SOk p /\ signature text object p = SOk sg.
Proof.
  intros ((n & s & L & M & R & N) & T & G & V). split.
  - unfold object_json. destruct (request_scout_json max_attempts delay (server object)) as [[o m] w] eqn:E. cbn [fst]. apply request_char in E. destruct E as (Lm & Mm & -> & D & _).
    assert (NM : ~ momentary (server object n)). { rewrite R. intros [[F _]|[_ Z]]; [contradiction|discriminate]. }
    assert (m = n + 1) as ->.
    { destruct (lt_eq_lt_dec m (n + 1)) as [[Q|Q]|Q]; [|exact Q|].
      - exfalso. destruct D as [D|D]; [lia|]. apply D, M. lia.
      - exfalso. apply NM, Mm. lia. }
    rewrite Nat.add_sub, R. cbn [ask]. destruct ((400 <=? s)%Z && (s <? 600)%Z) eqn:F; [apply failing_bool in F; contradiction|]. now rewrite T.
  - unfold signature. now rewrite G, V.
Qed.

Lemma all_some_length {A B} (f : A -> option B) l r : all_some f l = Some r -> List.length r = List.length l.
Proof. revert r. induction l as [|x l IH]; intros r H; cbn in H; [now injection H as <-|]. destruct (f x); [|discriminate]. destruct (all_some f l); [|discriminate]. injection H as <-. cbn. now rewrite (IH _ eq_refl). Qed.
Lemma all_some_nth {A B} (f : A -> option B) l r : all_some f l = Some r -> forall i x, nth_error l i = Some x -> exists y, f x = Some y /\ nth_error r i = Some y.
Proof.
  revert r. induction l as [|x l IH]; intros r H i z N; cbn in H; [destruct i; discriminate|]. destruct (f x) as [y|] eqn:F; [|discriminate]. destruct (all_some f l) as [r'|]; [|discriminate]. injection H as <-.
  destruct i as [|i]; [injection N as <-; exists y; auto|]. exact (IH r' eq_refl i z N).
Qed.
Lemma all_some_none {A B} (f : A -> option B) l x : In x l -> f x = None -> all_some f l = None.
Proof. induction l as [|y l IH]; intros [] F; cbn; [subst; now rewrite F|rewrite (IH H F)]. now destruct (f y). Qed.
Lemma smapM_inv {A B} (f : A -> sres B) l r : smapM f l = SOk r -> Forall2 (fun x y => f x = SOk y) l r.
Proof.
  revert r. induction l as [|x l IH]; intros r H; cbn in H; [injection H as <-; constructor|]. destruct (f x) as [y|] eqn:F; [|discriminate]. cbn in H.
  destruct (smapM f l) as [r'|]; [|discriminate]. injection H as <-. constructor; auto.
Qed.
Lemma smapM_err {A B} (f : A -> sres B) l e : smapM f l = SErr e -> exists i x, nth_error l i = Some x /\ f x = SErr e /\ forall j y, j < i -> nth_error l j = Some y -> exists b, f y = SOk b.
Proof.
  induction l as [|x l IH]; intro H; cbn in H; [discriminate|]. destruct (f x) as [y|e'] eqn:F; cbn in H.
  - destruct (smapM f l) as [r'|e'] eqn:E; [discriminate|]. injection H as <-. destruct (IH eq_refl) as (i & z & N & Fz & Bz). exists (Datatypes.S i), z. split; [exact N|]. split; [exact Fz|].
    intros [|j] w L Nw; [injection Nw as <-; now exists y|]. apply (Bz j w); [lia|exact Nw].
  - injection H as <-. exists 0, x. split; [reflexivity|]. split; [exact F|]. intros; lia.
Qed.

Lemma fold_min_le {A} (rest : list (list A)) m : fold_left (fun m x => Nat.min m (List.length x)) rest m <= m /\ forall x, In x rest -> fold_left (fun m x => Nat.min m (List.length x)) rest m <= List.length x.
Proof.
  revert m. induction rest as [|y rest IH]; intro m; cbn [fold_left]; [split; [lia|intros x []]|].
  destruct (IH (Nat.min m (List.length y))) as [A1 A2]. split; [lia|]. intros x [<-|I]; [lia|now apply A2].
Qed.
Lemma shortest_le {A} (rows : list (list A)) x : In x rows -> shortest rows <= List.length x.
Proof. destruct rows as [|r rest]; [intros []|]. cbn [shortest]. destruct (fold_min_le rest (List.length r)) as [A1 A2]. intros [<-|I]; [exact A1|now apply A2]. Qed.
Lemma fold_min_in {A} (rest : list (list A)) m : fold_left (fun m x => Nat.min m (List.length x)) rest m = m \/ exists x, In x rest /\ fold_left (fun m x => Nat.min m (List.length x)) rest m = List.length x.
Proof.
  revert m. induction rest as [|y rest IH]; intro m; cbn [fold_left]; [now left|]. destruct (IH (Nat.min m (List.length y))) as [E|(x & I & E)].
  - rewrite E. destruct (Nat.min_spec m (List.length y)) as [[_ ->]|[_ ->]]; [now left|right; exists y; split; [now left|reflexivity]].
  - right. exists x. split; [now right|exact E].
Qed.
Lemma shortest_in {A} (rows : list (list A)) : rows <> [] -> exists x, In x rows /\ shortest rows = List.length x.
Proof. destruct rows as [|r rest]; [congruence|]. intros _. cbn [shortest]. destruct (fold_min_in rest (List.length r)) as [E|(x & I & E)]; [exists r; split; [now left|exact E]|exists x; split; [now right|exact E]]. Qed.

(* the cells of the table *)
Lemma table_inv rs t : table_of (columns rs) = Some t -> shortest rs = 15 /\ List.length t = 15 /\
  (forall c, c < 15 -> List.length (nth c t []) = List.length rs) /\
  forall c i cells, c < 15 -> nth_error rs i = Some cells ->
    exists y, (if fst (nth c schema (false, false)) then int_cell else text_cell) (nth c cells JNull) = Some y /\ nth i (nth c t []) CNull = y.
Proof.
  unfold table_of. destruct (Nat.eqb_spec (List.length (columns rs)) (List.length schema)) as [E|]; [|discriminate]. intro H.
  assert (S15 : shortest rs = 15) by (unfold columns in E; rewrite map_length, seq_length in E; exact E).
  assert (L : List.length t = 15). { rewrite (all_some_length _ _ _ H), combine_length. unfold columns. rewrite map_length, seq_length, S15. reflexivity. }
  assert (K : forall c, c < 15 -> exists col, nth_error t c = Some col /\ all_some (if fst (nth c schema (false, false)) then int_cell else text_cell) (map (fun r => nth c r JNull) rs) = Some col).
  { intros c Lc. assert (N : nth_error (combine (columns rs) schema) c = Some (map (fun r => nth c r JNull) rs, nth c schema (false, false))).
    { assert (G : forall A B (a : list A) (b : list B) n x y, nth_error a n = Some x -> nth_error b n = Some y -> nth_error (combine a b) n = Some (x, y)).
      { induction a as [|x0 a IH]; intros [|y0 b] [|n] x y; cbn; try discriminate; [congruence|apply IH]. }
      apply G.
      - unfold columns. rewrite nth_error_map, S15. rewrite nth_error_nth' with (d := 0) by (rewrite seq_length; lia). now rewrite seq_nth.
      - apply nth_error_nth'. exact Lc. }
    destruct (all_some_nth _ _ _ H _ _ N) as (col & Y & Z). exists col. auto. }
  split; [exact S15|]. split; [exact L|]. split.
  - intros c Lc. destruct (K c Lc) as (col & N & A). rewrite (nth_error_nth _ _ _ N). rewrite (all_some_length _ _ _ A). apply map_length.
  - intros c i cells Lc Ni. destruct (K c Lc) as (col & N & A). rewrite (nth_error_nth _ _ _ N).
    destruct (all_some_nth _ _ _ A i (nth c cells JNull)) as (y & Y & Z); [now rewrite nth_error_map, Ni|]. exists y. split; [exact Y|]. now apply nth_error_nth.
Qed.
Lemma no_null t : has_null t = false -> List.length t = 15 -> forall c col, nth_error t c = Some col -> snd (nth c schema (false, true)) = false -> ~ In CNull col.
Proof.
  intros H L c col N S I. unfold has_null in H. assert (X : existsb (fun p : list cell * (bool * bool) => negb (snd (snd p)) && existsb (fun c => match c with CNull => true | _ => false end) (fst p)) (combine t schema) = true); [|congruence].
  apply existsb_exists. exists (col, nth c schema (false, true)). split.
  - assert (G : forall A B (a : list A) (b : list B) n x y, nth_error a n = Some x -> nth_error b n = Some y -> nth_error (combine a b) n = Some (x, y)).
    { induction a as [|x0 a IH]; intros [|y0 b] [|n] x y; cbn; try discriminate; [congruence|apply IH]. }
    apply nth_error_In with (n := c). apply G; [exact N|]. apply nth_error_nth'. change (List.length schema) with 15. rewrite <- L. apply nth_error_Some. congruence.
  - cbn [fst snd]. rewrite S. cbn. apply existsb_exists. exists CNull. auto.
Qed.
Lemma int_cell_inv j y : int_cell j = Some y -> y = CNull \/ exists q z, j = JNum (Some q) /\ y = CInt z /\ (q == inject_Z z)%Q.
Proof.
  destruct j as [| |[q|]| | |]; cbn [int_cell]; try discriminate; [intros [= <-]; now left|]. cbv zeta.
  destruct ((Z.pos (Qden (Qred q)) =? 1)%Z) eqn:E; cbn [andb]; [|discriminate]. destruct ((- 2 ^ 63 <=? Qnum (Qred q))%Z && (Qnum (Qred q) <? 2 ^ 63)%Z); [|discriminate].
  intros [= <-]. right. exists q, (Qnum (Qred q)). split; [reflexivity|]. split; [reflexivity|]. rewrite <- (Qred_correct q) at 1. apply Z.eqb_eq in E. destruct (Qred q) as [a b]. cbn in *. injection E as ->. reflexivity.
Qed.
Lemma text_cell_inv j y : text_cell j = Some y -> y = CNull \/ exists s, j = JStr s /\ y = CText s.
Proof. destruct j; cbn; try discriminate; intros [= <-]; [now left|right; eauto]. Qed.

Lemma object_inv parse text fold server max_attempts delay object out : scout_object parse text fold server max_attempts delay object = SOk out ->
  exists p sg orbits rows, delivers text max_attempts (server object) p sg /\ get "orbits" p = JObj orbits /\ get "data" orbits = JList rows /\ rows <> [] /\
    Forall2 (fun r v => exists cells, cells_of r = Some cells /\ sample parse object cells v) rows out.
Proof.
  unfold scout_object. intro H. destruct (object_json text fold server max_attempts delay object) as [p|e] eqn:J; [|discriminate]. cbn [sbind] in H.
  destruct (signature text object p) as [sg|e] eqn:S; [|discriminate]. cbn [sbind] in H.
  pose proof (object_delivers _ _ _ _ _ _ _ J sg S) as D.
  destruct (get "orbits" p) as [| | | | |orbits] eqn:Eo; try discriminate. destruct (get "data" orbits) as [| | | |rows|] eqn:Ed; try discriminate.
  destruct rows as [|r0 rows']; [discriminate|]. remember (r0 :: rows') as rows eqn:Er.
  destruct (all_some cells_of rows) as [rs|] eqn:A; [|discriminate]. destruct (table_of (columns rs)) as [t|] eqn:T; [|discriminate].
  destruct (has_null t) eqn:Hn; [discriminate|]. destruct (to_variants parse object t) as [l|e] eqn:V; [|discriminate]. injection H as <-.
  exists p, sg, orbits, rows. split; [exact D|]. split; [exact Eo|]. split; [exact Ed|]. split; [subst; discriminate|].
  destruct (table_inv _ _ T) as (S15 & Lt & Lc & K). pose proof (all_some_length _ _ _ A) as La. pose proof (mapM_length _ _ _ V) as Lv. rewrite seq_length, (Lc 0) in Lv by lia.
  assert (G : forall i r, nth_error rows i = Some r -> exists v, nth_error l i = Some v /\ exists cells, cells_of r = Some cells /\ sample parse object cells v).
  { intros i r Ni. destruct (all_some_nth _ _ _ A i r Ni) as (cells & Ec & Nc).
    assert (Li : i < List.length rs) by (apply nth_error_Some; congruence).
    assert (L15 : 15 <= List.length cells) by (rewrite <- S15; apply shortest_le; eapply nth_error_In; exact Nc).
    destruct (mapM_nth _ _ _ i i V) as (v & Ev & Nv); [rewrite nth_error_nth' with (d := 0) by (rewrite seq_length, (Lc 0); lia); rewrite seq_nth by (rewrite (Lc 0); lia); reflexivity|].
    exists v. split; [exact Nv|]. exists cells. split; [exact Ec|]. unfold variant_of in Ev.
    assert (X : forall c, c < 15 -> snd (nth c schema (false, true)) = false -> fst (nth c schema (false, false)) = false ->
       exists s, nth_error cells c = Some (JStr s) /\ nth c (map (fun col => nth i col CNull) t) CNull = CText s).
    { intros c Lc15 Sn Sf. destruct (K c i cells Lc15 Nc) as (y & Y & Z). rewrite Sf in Y.
      assert (Nt : nth_error t c = Some (nth c t [])) by (apply nth_error_nth'; lia).
      destruct (text_cell_inv _ _ Y) as [->|(s & E & ->)].
      - exfalso. apply (no_null t Hn Lt c (nth c t []) Nt Sn). rewrite <- Z. apply nth_In. rewrite Lc by exact Lc15. exact Li.
      - exists s. split; [rewrite <- E; apply nth_error_nth'; lia|]. apply nth_error_nth. rewrite nth_error_map, Nt. cbn. now rewrite Z. }
    destruct (X 1 ltac:(lia) eq_refl eq_refl) as (s1 & C1 & D1). destruct (X 2 ltac:(lia) eq_refl eq_refl) as (s2 & C2 & D2). destruct (X 3 ltac:(lia) eq_refl eq_refl) as (s3 & C3 & D3).
    destruct (X 4 ltac:(lia) eq_refl eq_refl) as (s4 & C4 & D4). destruct (X 5 ltac:(lia) eq_refl eq_refl) as (s5 & C5 & D5). destruct (X 6 ltac:(lia) eq_refl eq_refl) as (s6 & C6 & D6).
    destruct (X 7 ltac:(lia) eq_refl eq_refl) as (s7 & C7 & D7).
    destruct (K 0 i cells ltac:(lia) Nc) as (y & Y & Z). change (fst (nth 0 schema (false, false))) with true in Y. cbv iota in Y.
    assert (Nt : nth_error t 0 = Some (nth 0 t [])) by (apply nth_error_nth'; lia).
    destruct (int_cell_inv _ _ Y) as [->|(q0 & z & E0 & -> & Q0)].
    { exfalso. apply (no_null t Hn Lt 0 (nth 0 t []) Nt eq_refl). rewrite <- Z. apply nth_In. rewrite Lc by lia. exact Li. }
    assert (D0 : nth 0 (map (fun col => nth i col CNull) t) CNull = CInt z) by (apply nth_error_nth; rewrite nth_error_map, Nt; cbn; now rewrite Z).
    rewrite D0 in Ev. cbn [mapM] in Ev. rewrite D1, D2, D3, D4, D5, D6, D7 in Ev. cbn [float_of] in Ev.
    apply bind_inv in Ev. destruct Ev as (vs & Evs & Ev). apply bind_inv in Ev. destruct Ev as (tm & Et & Ev). injection Ev as <-.
    destruct (parse s3) as [x3|] eqn:P3; [|discriminate]. cbn [bind] in Evs. destruct (parse s2) as [x2|] eqn:P2; [|discriminate]. cbn [bind] in Evs.
    destruct (parse s7) as [x7|] eqn:P7; [|discriminate]. cbn [bind] in Evs. destruct (parse s5) as [x5|] eqn:P5; [|discriminate]. cbn [bind] in Evs.
    destruct (parse s6) as [x6|] eqn:P6; [|discriminate]. cbn [bind] in Evs. destruct (parse s4) as [x4|] eqn:P4; [|discriminate]. cbn [bind] in Evs.
    destruct (parse s1) as [x1|] eqn:P1; [|discriminate]. cbn [bind] in Evs. injection Evs as <-. cbn [nth] in Et. destruct x1 as [q1|]; [|discriminate]. cbn in Et. injection Et as <-.
    unfold sample. cbn [sv_object sv_orbit sv_variant sv_time sv_coords sv_origin sv_frame id_of firstn nth app perihelion].
    split; [exact L15|]. split; [reflexivity|]. split. { exists z, q0. split; [rewrite <- E0; apply nth_error_nth'; lia|]. auto. }
    split. { exists q1. split; [exists s1; auto|reflexivity]. }
    split; [|auto]. exists x3, x2, x7, x5, x6, x4. unfold number_at. repeat (split; [eauto|]). destruct x4; reflexivity. }
  clear - G La Lv. assert (Ll : List.length l = List.length rows) by lia. clear La Lv rs. revert l Ll G. induction rows as [|r rows IH]; intros [|v l] Ll G; try discriminate Ll; [constructor|].
  constructor.
  - destruct (G 0 r eq_refl) as (v' & [= <-] & X). exact X.
  - apply IH; [now injection Ll|]. intros i r' Ni. exact (G (Datatypes.S i) r' Ni).
Qed.

Lemma snapshot_inv text fold server max_attempts delay (Ob : Type) read80 designation sha int_of object (out : list (sobs Ob)) :
  scout_snapshot text fold server max_attempts delay Ob read80 designation sha int_of object = SOk out ->
  exists p sg raw obs date nobs version source, delivers text max_attempts (server object) p sg /\ get "fileMPC" p = JStr raw /\ read80 raw = Some obs /\ obs <> [] /\
    (forall o, In o obs -> designation o = object) /\ text_of (get "lastRun" p) = SOk date /\ int64_of (declared int_of (get "nObs" p)) = SOk nobs /\
    text_of (get "version" sg) = SOk version /\ text_of (get "source" sg) = SOk source /\
    out = map (fun q => mksobs object date nobs (sha raw) (Z.of_nat (List.length obs)) version source (Z.of_nat (fst q)) (snd q)) (combine (seq 0 (List.length obs)) obs).
Proof.
  unfold scout_snapshot. intro H. destruct (object_json text fold server max_attempts delay object) as [p|e] eqn:J; [|discriminate]. cbn [sbind] in H.
  destruct (signature text object p) as [sg|e] eqn:S; [|discriminate]. cbn [sbind] in H. pose proof (object_delivers _ _ _ _ _ _ _ J sg S) as D.
  destruct (get "fileMPC" p) as [| | |raw| |] eqn:Er; try discriminate. destruct (blank raw); [discriminate|]. destruct (read80 raw) as [[|o0 obs']|] eqn:R; try discriminate.
  remember (o0 :: obs') as obs eqn:Eo. destruct (existsb (fun o => negb (String.eqb (designation o) object)) obs) eqn:X; [discriminate|].
  destruct (text_of (get "lastRun" p)) as [date|] eqn:E1; [|discriminate]. cbn [sbind] in H. destruct (int64_of (declared int_of (get "nObs" p))) as [nobs|] eqn:E2; [|discriminate]. cbn [sbind] in H.
  destruct (text_of (get "version" sg)) as [version|] eqn:E3; [|discriminate]. cbn [sbind] in H. destruct (text_of (get "source" sg)) as [source|] eqn:E4; [|discriminate]. cbn [sbind] in H. injection H as <-.
  exists p, sg, raw, obs, date, nobs, version, source. split; [exact D|]. split; [exact Er|]. split; [exact R|]. split; [subst; discriminate|]. split; [|auto 10].
  intros o I. destruct (String.eqb_spec (designation o) object) as [E|N]; [exact E|]. exfalso. assert (Y : existsb (fun o => negb (String.eqb (designation o) object)) obs = true); [|congruence].
  apply existsb_exists. exists o. split; [exact I|]. now destruct (String.eqb_spec (designation o) object).
Qed.

Lemma zdec_inj a b : zdec a = zdec b -> a = b.
Proof.
  assert (D : forall x y, dec x = dec y -> x = y).
  { intros x y H. apply (f_equal NilEmpty.uint_of_string) in H. rewrite !dec_read in H. injection H as H. apply (f_equal N.of_uint) in H. now rewrite !DecimalN.Unsigned.of_to in H. }
  assert (M : forall x y, dec x <> ("-" ++ y)%string).
  { intros x y H. apply (f_equal NilEmpty.uint_of_string) in H. rewrite dec_read in H. cbn in H. destruct (NilEmpty.uint_of_string y); discriminate. }
  unfold zdec. destruct (Z.ltb_spec a 0) as [A|A]; destruct (Z.ltb_spec b 0) as [B|B]; intro H.
  - cbn in H. injection H as H. apply D in H. lia.
  - exfalso. symmetry in H. exact (M _ _ H).
  - exfalso. exact (M _ _ H).
  - apply D in H. lia.
Qed.
