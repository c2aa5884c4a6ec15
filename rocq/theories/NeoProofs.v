(* Lemmas about OEF files. *)
From Coq Require Import Ascii String QArith ZArith List Bool Lia.
From Verif Require Import Base MpcModel ObsModel AdesModel AdesSpec AdesProofs ObsProofs CovModel NeoModel NeoSpec.
Import ListNotations.
Open Scope string_scope.
Open Scope list_scope.
Open Scope nat_scope.

(* ---- stripping ---- *)
Definition rstrip (s : str) : str := rev (lstrip (rev s)).
Lemma strip_r : forall s, strip s = rstrip (lstrip s).
Proof. reflexivity. Qed.
Lemma lstrip_space : forall p s, allspace p -> lstrip (p ++ s) = lstrip s.
Proof. induction p as [|c p IH]; intros s H; auto. inversion H; subst. cbn. rewrite H2. auto. Qed.
Lemma lstrip_keep : forall u c y, is_space c = false -> lstrip (u ++ c :: y) = lstrip u ++ c :: y.
Proof. induction u as [|x u IH]; intros c y H; cbn; [rewrite H; auto|]. destruct (is_space x); auto. Qed.
Lemma rstrip_keep : forall x c z, is_space c = false -> rstrip (x ++ c :: z) = x ++ c :: rstrip z.
Proof.
  intros x c z H. unfold rstrip. rewrite rev_app_distr. cbn [rev]. rewrite <- app_assoc. cbn [app].
  rewrite lstrip_keep by auto. rewrite rev_app_distr. cbn [rev]. rewrite rev_involutive, <- app_assoc. reflexivity.
Qed.
Lemma allspace_rev : forall p, allspace p -> allspace (rev p).
Proof. intros p H. apply Forall_forall. intros x Hx. apply in_rev in Hx. unfold allspace in H. rewrite Forall_forall in H. auto. Qed.
Lemma rstrip_space : forall z p, allspace p -> rstrip (z ++ p) = rstrip z.
Proof. intros z p H. unfold rstrip. rewrite rev_app_distr, lstrip_space; auto using allspace_rev. Qed.
Lemma lstrip_all : forall p, allspace p -> lstrip p = [].
Proof. intros p H. rewrite <- (app_nil_r p), lstrip_space; auto. Qed.
Lemma rstrip_all : forall p, allspace p -> rstrip p = [].
Proof. intros p H. rewrite <- (app_nil_l p), rstrip_space; auto. Qed.
Lemma strip_keep : forall p c z, allspace p -> is_space c = false -> strip (p ++ c :: z) = c :: rstrip z.
Proof.
  intros p c z P C. rewrite strip_r, lstrip_space by auto. cbn [lstrip]. rewrite C.
  change (c :: z) with ([] ++ c :: z). rewrite rstrip_keep by auto. reflexivity.
Qed.
(* a word without blanks at the front survives *)
Lemma strip_word : forall p w z, allspace p -> nospace w -> w <> [] -> exists z', strip (p ++ w ++ z) = w ++ z'.
Proof.
  intros p w z P W N. destruct (exists_last N) as [w' [c ->]].
  assert (C : is_space c = false) by (apply Forall_app in W; destruct W as [_ W]; inversion W; auto).
  destruct w' as [|d w'].
  - cbn. rewrite strip_keep by auto. eauto.
  - assert (D : is_space d = false) by (inversion W; auto). cbn [app].
    rewrite strip_keep by auto. rewrite <- app_assoc. cbn [app]. rewrite rstrip_keep by auto. exists (rstrip z). rewrite <- app_assoc. reflexivity.
Qed.
Lemma visible : forall c, ~ white c -> is_space c = false.
Proof. intros c H. apply white_not. auto. Qed.

(* ---- the words of a line ---- *)
Lemma laid_words : forall ws l, laid ws l -> words l = ws.
Proof.
  induction 1 as [p P|p w ws rest P Np W Nw H IH].
  - rewrite <- (app_nil_r p), (words_lead p [] P). reflexivity.
  - rewrite words_lead by auto. destruct H as [p' P'|p' w' ws' rest' P' Np' W' Nw' H].
    + apply words_last; auto.
    + rewrite words_cons by auto. f_equal. rewrite words_lead in IH by auto. exact IH.
Qed.
Lemma words_prefix : forall w r, nospace w -> w <> [] -> exists w' t, words (w ++ r) = (w ++ w') :: t.
Proof.
  intros w r W N. unfold words. rewrite words_aux_word by auto. rewrite app_nil_r.
  assert (G : forall s cur, cur <> [] -> exists w' t, words_aux s cur = (rev cur ++ w') :: t).
  { clear. induction s as [|c s IH]; intros cur H.
    - cbn. destruct cur; [congruence|]. exists [], []. rewrite app_nil_r. reflexivity.
    - cbn [words_aux]. destruct (is_space c).
      + destruct cur; [congruence|]. exists [], (words_aux s []). rewrite app_nil_r. reflexivity.
      + destruct (IH (c :: cur) ltac:(discriminate)) as [w' [t E]]. exists (c :: w'), t. rewrite E. cbn [rev]. rewrite <- app_assoc. reflexivity. }
  destruct (G r (rev w)) as [w' [t E]]; [intros E; apply N; rewrite <- (rev_involutive w), E; reflexivity|].
  rewrite rev_involutive in E. eauto.
Qed.
Lemma keyword_iff : forall k kw vs l, nospace k -> k <> [] -> laid (kw :: vs) l -> startswith k (strip l) = true <-> begins k kw.
Proof.
  intros k kw vs l K N L. rewrite startswith_iff. split.
  - intros [b E]. pose proof (laid_words _ _ L) as W. rewrite <- words_strip, E in W.
    destruct (words_prefix k b K N) as [w' [t E2]]. rewrite E2 in W. injection W as W _. exists w'. auto.
  - intros [r ->]. inversion L as [|p w ws rest P Np Ww Nw H]; subst.
    destruct (strip_word p (k ++ r) rest P Ww Nw) as [z E]. exists (r ++ z). rewrite E, <- app_assoc. reflexivity.
Qed.
Lemma first_char : forall k c z, k <> [] -> is_space c = false -> (forall d r, k = d :: r -> d <> c) -> startswith k (strip (c :: z)) = false.
Proof.
  intros k c z N C D. change (c :: z) with ([] ++ c :: z). rewrite strip_keep by (auto; constructor).
  destruct (startswith k _) eqn:E; auto. apply startswith_iff in E. destruct E as [b E]. destruct k as [|d k]; [congruence|].
  injection E as -> E. destruct (D d k eq_refl eq_refl).
Qed.

(* ---- the five keywords ---- *)
Definition keyword (k : str) : Prop := In k keywords5.
Lemma keyword_facts5 : forall k, keyword k -> nospace k /\ k <> [] /\ forall d r, k = d :: r -> d <> "!"%char /\ d <> "f"%char /\ d <> "r"%char /\ d <> "E"%char.
Proof.
  intros k H. repeat (destruct H as [<-|H]; [split; [repeat constructor|split; [discriminate|intros d r E; injection E as <- _; repeat split; discriminate]]|]).
  destruct H.
Qed.
Lemma entry_keyword : forall k e l, keyword k -> entry_line e l ->
  startswith k (strip l) = match e with Fields kw _ => str_eqb kw k | Remark _ => false end.
Proof.
  intros k e l K H. destruct (keyword_facts5 k K) as (A & B & C). inversion H; subst.
  - apply first_char; auto. intros d r E. destruct (C d r E) as [D _]. auto.
  - destruct (str_eqb kw k) eqn:E.
    + unfold str_eqb in E. apply String.eqb_eq in E. apply (f_equal list_ascii_of_string) in E. rewrite !list_ascii_of_string_of_list_ascii in E. subst.
      apply (keyword_iff k k vs); auto. exists []. rewrite app_nil_r. reflexivity.
    + destruct (startswith k (strip l)) eqn:E2; auto. apply (keyword_iff k kw vs) in E2; auto.
      rewrite (H3 k K E2) in E. unfold str_eqb in E. rewrite String.eqb_refl in E. discriminate.
Qed.
Lemma str_eqb_eq : forall a b, str_eqb a b = true <-> a = b.
Proof.
  intros a b. unfold str_eqb. rewrite String.eqb_eq. split; [|congruence]. intros E.
  apply (f_equal list_ascii_of_string) in E. rewrite !list_ascii_of_string_of_list_ascii in E. auto.
Qed.
Lemma entry_words : forall e l kw vs, entry_line e l -> e = Fields kw vs -> words l = kw :: vs.
Proof. intros e l kw vs H E. inversion H; subst; [discriminate|]. injection H4 as -> ->. apply laid_words. auto. Qed.

Section Lines.
Variables (f : file) (h1 h2 : list str) (r : str) (ls : list str) (pre post : str).
Hypothesis Hh1 : Forall other_header h1.
Hypothesis Hr : refsys_line (f_refsys f) r.
Hypothesis Hh2 : Forall other_header h2.
Hypothesis Hv : plain_value (f_refsys f).
Hypothesis Hi : plain_id (f_id f).
Hypothesis Hb : Forall2 entry_line (f_body f) ls.
Hypothesis He : forall ls' l, ls = ls' ++ [l] -> ends_visible l.
Hypothesis Hpre : allspace pre.
Hypothesis Hpost : allspace post.
Let L : list str := h1 ++ r :: h2 ++ s_ "END_OF_HEADER" :: f_id f :: ls.

Lemma other_first : forall l, other_header l -> exists c z, l = c :: z /\ is_space c = false /\ (c = "f" \/ c = "r" \/ c = "!")%char.
Proof.
  intros l [_ [[z ->]|[[z ->]|[z ->]]]]; cbn; eexists _, _; (split; [reflexivity|split; [reflexivity|auto]]).
Qed.
Lemma refsys_first : exists z, r = "r"%char :: z.
Proof. destruct Hr as (a & b & c & t & q & -> & _). cbn. eauto. Qed.
Lemma no_newline : Forall (fun l => ~ In NL l) L.
Proof.
  apply Forall_app. split; [eapply Forall_impl; [|exact Hh1]; intros l H; apply H|]. constructor.
  - destruct Hr as (a & b & c & t & q & H). apply H.
  - apply Forall_app. split; [eapply Forall_impl; [|exact Hh2]; intros l H; apply H|]. constructor.
    + cbn. intuition discriminate.
    + constructor; [apply Hi|]. clear - Hb. induction Hb; constructor; auto. inversion H; subst; auto. cbn. intros [E|E]; [discriminate|auto].
Qed.
Lemma join_ends : forall c (x : list str) l, (exists p, l = p ++ [c]) -> exists p, join NL (x ++ [l]) = p ++ [c].
Proof.
  intros c x l [p ->]. induction x as [|y x [q IH]]; [exists p; reflexivity|]. cbn [app].
  destruct x as [|z x]; cbn [app join] in *.
  - exists (y ++ NL :: p). rewrite <- app_assoc. reflexivity.
  - rewrite IH. exists (y ++ NL :: q). rewrite <- app_assoc. reflexivity.
Qed.
Lemma join_starts : forall c z (x : list str), exists q, join NL ((c :: z) :: x) = c :: q.
Proof. intros c z [|y x]; cbn; eauto. Qed.
Lemma text_first : exists c q, join NL L = c :: q /\ is_space c = false.
Proof.
  unfold L. destruct h1 as [|l h].
  - destruct refsys_first as [z E]. rewrite E. cbn [app]. destruct (join_starts "r"%char z (h2 ++ s_ "END_OF_HEADER" :: f_id f :: ls)) as [q Eq].
    exists "r"%char, q. split; auto.
  - inversion Hh1; subst. destruct (other_first l H1) as (c & z & -> & C & _). cbn [app].
    destruct (join_starts c z (h ++ r :: h2 ++ s_ "END_OF_HEADER" :: f_id f :: ls)) as [q Eq]. exists c, q. auto.
Qed.
Lemma text_last : exists p c, join NL L = p ++ [c] /\ is_space c = false.
Proof.
  assert (E : exists x l, L = x ++ [l] /\ ends_visible l).
  { unfold L. destruct (list_eq_dec (list_eq_dec ascii_dec) ls []) as [->|N].
    - exists (h1 ++ r :: h2 ++ [s_ "END_OF_HEADER"]), (f_id f). split; [rewrite <- app_assoc; cbn; rewrite <- app_assoc; reflexivity|].
      destruct Hi as ([_ B] & N & _). destruct (exists_last N) as [w [c E]]. exists w, c. split; auto. exact (B c w E).
    - destruct (exists_last N) as [x [l E]]. exists (h1 ++ r :: h2 ++ s_ "END_OF_HEADER" :: f_id f :: x), l. split; [|exact (He x l E)].
      rewrite E. rewrite <- app_assoc. cbn. rewrite <- app_assoc. reflexivity. }
  destruct E as (x & l & -> & w & c & -> & C). destruct (join_ends c x (w ++ [c])) as [p E]; [eauto|]. exists p, c. split; auto using visible.
Qed.
Lemma text_lines : split_on NL (strip (pre ++ join NL L ++ post)) = L.
Proof.
  assert (E : strip (pre ++ join NL L ++ post) = join NL L).
  { destruct text_first as (c & q & E & C). destruct text_last as (p & d & E2 & D).
    rewrite E. cbn [app]. rewrite strip_keep by auto. destruct q as [|x q].
    - cbn [app]. rewrite rstrip_all by auto. reflexivity.
    - f_equal. rewrite rstrip_space by auto. rewrite E2 in E. destruct p as [|y p]; [discriminate|]. injection E as -> E. rewrite <- E.
      rewrite rstrip_keep by auto. reflexivity. }
  rewrite E. apply split_join; [unfold L; destruct h1; discriminate|apply no_newline].
Qed.

(* ---- records ---- *)
Lemma no_keyword : forall k l, keyword k -> other_header l \/ l = r \/ l = s_ "END_OF_HEADER" \/ l = f_id f -> startswith k (strip l) = false.
Proof.
  intros k l K H. destruct (keyword_facts5 k K) as (A & B & C). destruct H as [H|[->|[->| ->]]].
  - destruct (other_first l H) as (c & z & -> & S & D). apply first_char; auto. intros d x E. destruct (C d x E) as (C1 & C2 & C3 & _). destruct D as [->|[->| ->]]; auto.
  - destruct refsys_first as [z ->]. apply first_char; auto. intros d x E. apply (C d x E).
  - change (s_ "END_OF_HEADER") with ("E"%char :: s_ "ND_OF_HEADER"). apply first_char; auto. intros d x E. apply (C d x E).
  - destruct Hi as (T & _ & _ & P). rewrite strip_trimmed by auto. destruct (startswith k (f_id f)) eqn:E; auto.
    apply startswith_iff in E. destruct (P k); auto. apply in_or_app. left. exact K.
Qed.
Lemma filter_none : forall {A} (p : A -> bool) l, (forall x, In x l -> p x = false) -> filter p l = [].
Proof. induction l as [|x l IH]; intros H; auto. cbn. rewrite H by (left; auto). apply IH. intros y Hy. apply H. right. auto. Qed.
Lemma of_keyword_body : forall k, keyword (s_ k) -> of_keyword k L = of_keyword k ls.
Proof.
  intros k K. unfold L, of_keyword. rewrite filter_app. cbn [filter]. rewrite filter_app. cbn [filter].
  rewrite (no_keyword (s_ k) r K) by auto. rewrite (no_keyword (s_ k) (s_ "END_OF_HEADER") K) by auto. rewrite (no_keyword (s_ k) (f_id f) K) by auto.
  rewrite (filter_none _ h1), (filter_none _ h2); [reflexivity| |]; intros x Hx; apply no_keyword; auto; left.
  - rewrite Forall_forall in Hh2. auto.
  - rewrite Forall_forall in Hh1. auto.
Qed.
Lemma keyword_words : forall k, keyword (s_ k) -> map words (of_keyword k L) = map (cons (s_ k)) (values k (f_body f)).
Proof.
  intros k K. rewrite of_keyword_body by auto. clear - Hb K. unfold of_keyword, values. induction Hb as [|e l es ls H Hs IH0]; auto. specialize (IH0 Hs). rename IH0 into IH.
  cbn [filter flat_map]. rewrite (entry_keyword (s_ k) e l K H). destruct e as [t|kw vs].
  - exact IH.
  - destruct (str_eqb kw (s_ k)) eqn:E; [|exact IH]. cbn [map app]. rewrite IH. rewrite (entry_words _ _ kw vs H eq_refl). apply str_eqb_eq in E. subst. reflexivity.
Qed.

(* ---- id ---- *)
Lemma find_skip : forall {A} (p : A -> bool) x y, (forall z, In z x -> p z = false) -> find p (x ++ y) = find p y.
Proof. induction x as [|a x IH]; intros y H; auto. cbn. rewrite H by (left; auto). apply IH. intros z Hz. apply H. right. auto. Qed.
Lemma header_not_id : forall l, other_header l \/ l = r -> negb (existsb (fun p => startswith p l) not_ids) = false.
Proof.
  intros l H. apply negb_false_iff, existsb_exists.
  destruct H as [[_ [H|[H|H]]]| ->].
  - exists (s_ "format"). split; [cbn; auto|apply startswith_iff; exact H].
  - exists (s_ "rectype"). split; [cbn; auto|apply startswith_iff; exact H].
  - exists (s_ "!"). split; [cbn; auto|apply startswith_iff; exact H].
  - exists (s_ "refsys"). split; [cbn; auto 10|apply startswith_iff]. destruct Hr as (a & b & c & t & q & -> & _). eauto.
Qed.
Lemma found_id : find_id L = Some (f_id f).
Proof.
  unfold find_id, L. rewrite find_skip; [|intros z Hz; apply header_not_id; left; rewrite Forall_forall in Hh1; auto].
  cbn [find]. rewrite header_not_id by auto. rewrite find_skip; [|intros z Hz; apply header_not_id; left; rewrite Forall_forall in Hh2; auto].
  cbn [find]. replace (negb (existsb (fun p => startswith p (s_ "END_OF_HEADER")) not_ids)) with false by reflexivity.
  destruct Hi as (T & N & _ & P).
  replace (negb (existsb (fun p => startswith p (f_id f)) not_ids)) with true.
  - cbn. rewrite strip_trimmed by auto. reflexivity.
  - symmetry. apply negb_true_iff. destruct (existsb _ _) eqn:E; auto. apply existsb_exists in E. destruct E as (p & Hp & E).
    apply startswith_iff in E. exfalso. cbn [not_ids In] in Hp. destruct Hp as [<-|[<-|Hp]].
    + refine (P (s_ "!") _ E). cbn. auto 10.
    + destruct E as [b E]. destruct T as [A _]. apply (A " "%char b E). right. unfold code. cbn. lia.
    + refine (P p _ E). cbn. cbn in Hp. tauto.
Qed.

(* ---- header ---- *)
Lemma dget_dset : forall {V} (k k' : str) (v : V) (d : list (str * V)), dget str_eqb k (dset str_eqb k' v d) = if str_eqb k k' then Some v else dget str_eqb k d.
Proof.
  intros V k k' v d. induction d as [|[a b] d IH]; cbn; auto. destruct (str_eqb k' a) eqn:E; cbn.
  - apply str_eqb_eq in E. subst. destruct (str_eqb k a) eqn:E2; auto.
  - rewrite IH. destruct (str_eqb k a) eqn:E2; auto. destruct (str_eqb k k') eqn:E3; auto.
    apply str_eqb_eq in E2, E3. assert (str_eqb k' a = true) by (apply str_eqb_eq; congruence). congruence.
Qed.
Lemma split_once_app : forall c x y, ~ In c x -> split_once c (x ++ c :: y) = Some (x, y).
Proof.
  intros c x y H. induction x as [|a x IH]; cbn; [rewrite Ascii.eqb_refl; auto|]. destruct (Ascii.eqb a c) eqn:E.
  - apply Ascii.eqb_eq in E. subst. destruct H. left; auto.
  - rewrite IH; auto. intros X. apply H. right; auto.
Qed.
Lemma split_once_prefix : forall c w z k v, ~ In c w -> split_once c (w ++ z) = Some (k, v) -> exists k', k = w ++ k'.
Proof.
  intros c w z. induction w as [|a w IH]; intros k v H E; [exists k; auto|]. cbn in E. destruct (Ascii.eqb a c) eqn:E1.
  - apply Ascii.eqb_eq in E1. subst. destruct H. left; auto.
  - destruct (split_once c (w ++ z)) as [[k1 v1]|] eqn:E2; [|discriminate]. injection E as <- <-.
    destruct (IH k1 v1) as [k' ->]; auto. { intros X. apply H. right; auto. } exists k'. reflexivity.
Qed.
Lemma other_kept : forall l rest h, other_header l -> exists h', parse_header (l :: rest) h = parse_header rest h' /\ dget str_eqb (s_ "refsys") h' = dget str_eqb (s_ "refsys") h.
Proof.
  intros l rest h [_ H].
  assert (E : exists w z, l = w ++ z /\ nospace w /\ w <> [] /\ ~ In "="%char w /\ ~ begins w (s_ "refsys") /\ ~ begins w (s_ "END_OF_HEADER")).
  { destruct H as [[z ->]|[[z ->]|[z ->]]]; eexists _, z; (split; [reflexivity|]); (split; [repeat constructor|]); (split; [discriminate|]);
    (split; [cbn; intuition discriminate|]); split; intros [b E]; discriminate. }
  destruct E as (w & z & -> & W & N & Q & R1 & R2). destruct (strip_word [] w z ltac:(constructor) W N) as [z' E]. cbn [app] in E.
  cbn [parse_header]. rewrite E. destruct (str_eqb (w ++ z') (s_ "END_OF_HEADER")) eqn:X; [apply str_eqb_eq in X; destruct R2; exists z'; auto|].
  destruct (split_once "=" (w ++ z')) as [[k v]|] eqn:S; [|exists h; auto]. destruct (split_once_prefix _ _ _ _ _ Q S) as [k' ->].
  eexists. split; [reflexivity|]. rewrite dget_dset. destruct (strip_word [] w k' ltac:(constructor) W N) as [k2 E2]. cbn [app] in E2. rewrite E2.
  destruct (str_eqb (s_ "refsys") (w ++ k2)) eqn:Y; auto. apply str_eqb_eq in Y. destruct R1. exists k2. auto.
Qed.
Lemma others_kept : forall hs rest h, Forall other_header hs -> exists h', parse_header (hs ++ rest) h = parse_header rest h' /\ dget str_eqb (s_ "refsys") h' = dget str_eqb (s_ "refsys") h.
Proof.
  induction hs as [|l hs IH]; intros rest h H; [exists h; auto|]. inversion H; subst. cbn [app].
  destruct (other_kept l (hs ++ rest) h H2) as (h' & -> & E). destruct (IH rest h' H3) as (h2' & -> & E2). exists h2'. split; auto. congruence.
Qed.
Lemma lstrip_quote : forall s c, hd_error s <> Some c -> lstrip_char c s = s.
Proof. intros [|x s] c H; auto. cbn in *. destruct (Ascii.eqb x c) eqn:E; auto. apply Ascii.eqb_eq in E. subst. congruence. Qed.
Lemma strip_quotes : forall v q, ~ In "'"%char v -> v <> [] -> q = [] \/ q = ["'"%char] -> strip_char "'" (q ++ v ++ q) = v.
Proof.
  intros v q V N H. assert (A : forall s, hd_error (v ++ s) <> Some "'"%char).
  { intros s E. destruct v as [|x v]; [congruence|]. injection E as ->. apply V. left; auto. }
  assert (B : hd_error (rev v) <> Some "'"%char).
  { intros E. apply V. apply in_rev. destruct (rev v); [discriminate|]. injection E as ->. left; auto. }
  unfold strip_char. destruct H as [->| ->].
  - cbn [app]. rewrite app_nil_r. rewrite (lstrip_quote v); [|specialize (A []); rewrite app_nil_r in A; auto]. rewrite lstrip_quote by auto. apply rev_involutive.
  - cbn [app lstrip_char]. change (Ascii.eqb "'" "'") with true. cbn iota. rewrite (lstrip_quote (v ++ ["'"%char])) by auto. rewrite rev_app_distr. cbn [rev app lstrip_char].
    change (Ascii.eqb "'" "'") with true. cbn iota. rewrite (lstrip_quote (rev v)) by auto. apply rev_involutive.
Qed.
Lemma refsys_value : forall rest h, exists h', parse_header (r :: rest) h = parse_header rest h' /\ dget str_eqb (s_ "refsys") h' = Some (f_refsys f).
Proof.
  intros rest h. destruct Hr as (a & b & c & t & q & E & A & B & C & T & Q & _). destruct Hv as (V & N & V1 & V2).
  assert (SQ : forall x, allspace x -> ~ In "="%char x).
  { intros x X I. unfold allspace in X. rewrite Forall_forall in X. specialize (X _ I). discriminate. }
  (* the text after "=" with blanks at its end removed *)
  assert (U : exists y, rstrip (b ++ q ++ f_refsys f ++ q ++ c ++ t) = y /\ header_value y = f_refsys f).
  { set (m := q ++ f_refsys f ++ q).
    assert (M : trimmed m /\ m <> [] /\ ~ In "!"%char m).
    { unfold m. destruct Q as [->| ->]; [rewrite app_nil_r; auto|]. split; [|split; [discriminate|]].
      - cbn [app]. apply trimmed_edges; apply white_not; reflexivity.
      - cbn. intros [X|X]; [discriminate|]. apply in_app_or in X. destruct X as [X|[X|[]]]; [auto|discriminate]. }
    destruct M as (M1 & M2 & M3).
    assert (Sp : forall x y, allspace x -> allspace y -> strip (x ++ m ++ y) = m).
    { intros x y X Y. destruct M1 as [M1 M1']. destruct m as [|m0 m'] eqn:Em; [congruence|]. cbn [app].
      rewrite strip_keep by (auto; apply visible, (M1 m0 m' eq_refl)). rewrite rstrip_space by auto.
      destruct m' as [|m1 m'] using rev_ind; [reflexivity|]. clear IHm'.
      rewrite rstrip_keep; [reflexivity|]. apply visible. apply (M1' m1 (m0 :: m')). reflexivity. }
    assert (Nb : forall x, allspace x -> ~ In "!"%char x).
    { intros x X I. unfold allspace in X. rewrite Forall_forall in X. specialize (X _ I). discriminate. }
    assert (R : b ++ q ++ f_refsys f ++ q ++ c ++ t = b ++ m ++ c ++ t) by (unfold m; rewrite <- !app_assoc; reflexivity).
    rewrite R. destruct T as [->|[t' ->]].
    - rewrite app_nil_r. rewrite app_assoc, rstrip_space by auto. eexists. split; [reflexivity|].
      assert (X : rstrip (b ++ m) = b ++ m).
      { destruct (exists_last M2) as [m' [d Em]]. rewrite Em. rewrite app_assoc, rstrip_keep; [reflexivity|]. apply visible. destruct M1 as [_ M1]. exact (M1 d m' Em). }
      rewrite X. unfold header_value. rewrite split_none; [|intros I; apply in_app_or in I; destruct I as [I|I]; [exact (Nb b B I)|auto]].
      cbn [hd]. rewrite <- (app_nil_r m). rewrite (Sp b []) by (auto; constructor). apply strip_quotes; auto.
    - change (s_ "!" ++ t') with ("!"%char :: t'). rewrite !app_assoc. rewrite rstrip_keep by reflexivity. eexists. split; [reflexivity|].
      unfold header_value. rewrite split_app; [|intros I; rewrite !in_app_iff in I; destruct I as [[I|I]|I]; [exact (Nb b B I)|auto|exact (Nb c C I)]].
      cbn [hd]. rewrite <- app_assoc. rewrite (Sp b c) by auto. apply strip_quotes; auto. }
  destruct U as (y & Ey & Hy).
  assert (St : strip r = (s_ "refsys" ++ a) ++ "="%char :: y).
  { rewrite E. rewrite app_assoc.
    change (s_ "refsys") with ("r"%char :: s_ "efsys"). cbn [app].
    change ("r"%char :: (s_ "efsys" ++ a) ++ ?z) with ([] ++ "r"%char :: (s_ "efsys" ++ a) ++ z).
    rewrite strip_keep by (auto; constructor). rewrite rstrip_keep by reflexivity. rewrite Ey. reflexivity. }
  cbn [parse_header]. rewrite St.
  replace (str_eqb ((s_ "refsys" ++ a) ++ "="%char :: y) (s_ "END_OF_HEADER")) with false
    by (symmetry; destruct (str_eqb _ _) eqn:X; auto; apply str_eqb_eq in X; discriminate).
  rewrite split_once_app; [|intros I; apply in_app_or in I; destruct I as [I|I]; [cbn in I; intuition discriminate|exact (SQ a A I)]].
  eexists. split; [reflexivity|]. rewrite dget_dset.
  replace (strip (s_ "refsys" ++ a)) with (s_ "refsys").
  - rewrite Hy. reflexivity.
  - symmetry. change (s_ "refsys" ++ a) with ([] ++ "r"%char :: (s_ "efsys" ++ a)). rewrite strip_keep by (auto; constructor). rewrite rstrip_space by auto. reflexivity.
Qed.
Lemma found_refsys : dget str_eqb (s_ "refsys") (parse_header L []) = Some (f_refsys f).
Proof.
  unfold L. destruct (others_kept h1 (r :: h2 ++ s_ "END_OF_HEADER" :: f_id f :: ls) [] Hh1) as (h & -> & _).
  destruct (refsys_value (h2 ++ s_ "END_OF_HEADER" :: f_id f :: ls) h) as (h' & -> & E).
  destruct (others_kept h2 (s_ "END_OF_HEADER" :: f_id f :: ls) h' Hh2) as (h'' & -> & E2).
  cbn [parse_header]. replace (str_eqb (strip (s_ "END_OF_HEADER")) (s_ "END_OF_HEADER")) with true by reflexivity. congruence.
Qed.
End Lines.
