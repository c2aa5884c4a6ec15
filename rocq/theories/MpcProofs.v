From Verif Require Import Base MpcModel MpcSpec.
From Coq Require Import Ascii String.
Open Scope Z_scope.
Open Scope list_scope.
Ltac Zify.zify_post_hook ::= Z.div_mod_to_equations.

Lemma ascii_all (P : ascii -> bool) :
  forallb P (map ascii_of_nat (seq 0 256)) = true -> forall c, P c = true.
Proof.
  intros H c. rewrite forallb_forall in H. apply H. apply in_map_iff.
  exists (nat_of_ascii c). split. apply ascii_nat_embedding.
  apply in_seq. pose proof (nat_ascii_bounded c). lia.
Qed.

Ltac asc P c := let H := fresh in
  assert (H : P c = true) by (apply (ascii_all P); vm_compute; reflexivity); cbv beta in H.

Lemma sdigit_is c : sdigit c <-> is_digit c = true.
Proof. unfold sdigit, is_digit. lia. Qed.
Lemma sval_dv c : sval c = digit_val c.
Proof. reflexivity. Qed.
Lemma digit_range c : is_digit c = true -> 0 <= digit_val c <= 9.
Proof. unfold is_digit, digit_val. lia. Qed.
Lemma digit_inv c : is_digit c = true -> digit_char (digit_val c) = c.
Proof.
  intros H. asc (fun c => implb (is_digit c) (Ascii.eqb (digit_char (digit_val c)) c)) c.
  rewrite H in H0. cbn in H0. now apply Ascii.eqb_eq in H0.
Qed.
Lemma digit_char_is d : 0 <= d <= 9 -> is_digit (digit_char d) = true /\ digit_val (digit_char d) = d.
Proof.
  intros H. unfold is_digit, digit_val, digit_char. rewrite nat_ascii_embedding by lia. lia.
Qed.

(* ---- numerals in base b as lists of digit values ---- *)
Fixpoint hval (b acc : Z) (l : list Z) : Z :=
  match l with [] => acc | d :: r => hval b (b * acc + d) r end.

Lemma hval_app b l1 l2 a : hval b a (l1 ++ l2) = hval b (hval b a l1) l2.
Proof. revert a. induction l1; cbn; auto. Qed.
Lemma hval_acc b l a : hval b a l = a * b ^ Z.of_nat (List.length l) + hval b 0 l.
Proof.
  revert a. induction l as [|d r IH]; intros a. cbn; lia.
  cbn [hval List.length]. rewrite IH, (IH (b * 0 + d)).
  rewrite Nat2Z.inj_succ, Z.pow_succ_r by lia. ring.
Qed.
Definition dok (b : Z) (l : list Z) := Forall (fun d => 0 <= d < b) l.
Lemma hval_bound b l : 1 <= b -> dok b l -> 0 <= hval b 0 l < b ^ Z.of_nat (List.length l).
Proof.
  intros Hb H. induction H as [|d r Hd Hr IH]. cbn; lia.
  cbn [hval List.length]. rewrite hval_acc, Nat2Z.inj_succ, Z.pow_succ_r by lia.
  set (p := b ^ _) in *. nia.
Qed.

Lemma digits_aux_spec b fuel : 2 <= b -> forall n acc, 0 <= n < 2 ^ Z.of_nat fuel -> dok b acc ->
  (n = 0 -> match acc with [] => True | d :: _ => d <> 0 end) ->
  let r := digits_aux b fuel n acc in
  hval b 0 r = hval b n acc /\ dok b r /\ match r with [] => True | d :: _ => d <> 0 end.
Proof.
  intros Hb. induction fuel as [|f IH]; intros n acc Hn Ha Hz; cbn [digits_aux].
  - change (2 ^ Z.of_nat 0) with 1 in Hn. assert (n = 0) by lia. subst. cbn zeta. repeat split; auto. exact (Hz eq_refl).
  - destruct (Z.eqb_spec n 0).
    + subst. cbn zeta. repeat split; auto. exact (Hz eq_refl).
    + assert (0 <= n / b < 2 ^ Z.of_nat f).
      { rewrite Nat2Z.inj_succ, Z.pow_succ_r in Hn by lia. split. apply Z.div_pos; lia.
        apply Z.div_lt_upper_bound. lia. nia. }
      destruct (IH (n / b) ((n mod b) :: acc) H) as (E & D & Nz).
      * constructor; auto. apply Z.mod_pos_bound. lia.
      * intros Hq. rewrite Z.mod_eq, Hq by lia. lia.
      * cbn zeta. rewrite E. cbn [hval]. rewrite <- Z.div_mod by lia. auto.
Qed.

Lemma digits_spec b n : 2 <= b -> 0 <= n ->
  hval b 0 (digits b n) = n /\ dok b (digits b n) /\
  match digits b n with [] => True | d :: _ => d <> 0 end.
Proof.
  intros Hb Hn. unfold digits.
  destruct (digits_aux_spec b (S (Z.to_nat (Z.log2 n))) Hb n []) as (E & D & N).
  - split; [lia|]. rewrite Nat2Z.inj_succ, Z2Nat.id by apply Z.log2_nonneg.
    destruct (Z.eq_dec n 0) as [->|]; [reflexivity|]. apply Z.log2_spec. lia.
  - constructor.
  - auto.
  - auto.
Qed.

(* canonical numerals are unique *)
Lemma hval_lb b d r : 2 <= b -> dok b (d :: r) -> d <> 0 -> b ^ Z.of_nat (List.length r) <= hval b 0 (d :: r).
Proof.
  intros Hb H Hd. inversion H as [|? ? H3 H4]; subst. cbn [hval]. rewrite hval_acc.
  pose proof (hval_bound b r ltac:(lia) H4). 
  assert (0 < b ^ Z.of_nat (List.length r)) by (apply Z.pow_pos_nonneg; lia). nia.
Qed.
Lemma hval_inj_len b l1 l2 : 2 <= b -> dok b l1 -> dok b l2 -> List.length l1 = List.length l2 ->
  hval b 0 l1 = hval b 0 l2 -> l1 = l2.
Proof.
  intros Hb H. revert l2. induction H as [|d r Hd Hr IH]; intros l2 H2 L E.
  - destruct l2; [auto|discriminate].
  - destruct l2 as [|d2 r2]; [discriminate|]. inversion H2 as [|? ? Hd2 Hr2]; subst. injection L as L.
    cbn [hval] in E. rewrite !(hval_acc b _ (b * 0 + _)) in E. rewrite <- L in E.
    pose proof (hval_bound b r ltac:(lia) Hr). pose proof (hval_bound b r2 ltac:(lia) Hr2). rewrite <- L in *.
    set (p := b ^ _) in *. assert (d = d2) by nia. subst. f_equal. apply IH; auto. lia.
Qed.
Lemma hval_inj b l1 l2 : 2 <= b -> dok b l1 -> dok b l2 ->
  match l1 with [] => True | d :: _ => d <> 0 end ->
  match l2 with [] => True | d :: _ => d <> 0 end ->
  hval b 0 l1 = hval b 0 l2 -> l1 = l2.
Proof.
  intros Hb H1 H2 N1 N2 E. apply (hval_inj_len b); auto.
  assert (K : forall l l', dok b l -> dok b l' ->
     match l with [] => True | d :: _ => d <> 0 end ->
     hval b 0 l = hval b 0 l' -> (List.length l <= List.length l')%nat).
  { intros l l' D D' N Ev. destruct l as [|d r]. cbn; lia.
    pose proof (hval_lb b d r Hb D N). pose proof (hval_bound b l' ltac:(lia) D').
    destruct (Nat.leb_spec (List.length (d :: r)) (List.length l')); auto.
    cbn in H3. exfalso.
    assert (b ^ Z.of_nat (List.length l') <= b ^ Z.of_nat (List.length r)) by (apply Z.pow_le_mono_r; lia).
    lia. }
  apply Nat.le_antisymm; apply K; auto.
Qed.
Lemma digits_len b n k : 2 <= b -> 0 <= n < b ^ Z.of_nat k -> (List.length (digits b n) <= k)%nat.
Proof.
  intros Hb Hn. destruct (digits_spec b n Hb ltac:(lia)) as (E & D & N).
  destruct (digits b n) as [|d r]. cbn; lia.
  pose proof (hval_lb b d r Hb D N). rewrite E in H. cbn.
  destruct (Nat.leb_spec (S (List.length r)) k); auto. exfalso.
  assert (b ^ Z.of_nat k <= b ^ Z.of_nat (List.length r)) by (apply Z.pow_le_mono_r; lia). lia.
Qed.

(* ---- strings of digits ---- *)
Definition alld (s : str) := Forall (fun c => is_digit c = true) s.
Lemma alld_sdigit s : alld s <-> Forall sdigit s.
Proof.
  unfold alld. rewrite !Forall_forall. split; intros H x Hx; apply sdigit_is; auto.
Qed.
Lemma svalue_hval s a : svalue a s = hval 10 a (map digit_val s).
Proof. revert a. induction s; cbn; intros; auto. Qed.
Lemma alld_dok s : alld s -> dok 10 (map digit_val s).
Proof. intros H. apply Forall_map. eapply Forall_impl; [|apply H]. cbn. intros c Hc. pose proof (digit_range c Hc). lia. Qed.
Lemma map_digit_inv s : alld s -> map digit_char (map digit_val s) = s.
Proof. induction 1; cbn; auto. rewrite digit_inv; auto. f_equal; auto. Qed.
Lemma map_digit_char_alld l : dok 10 l -> alld (map digit_char l) /\ map digit_val (map digit_char l) = l.
Proof.
  induction 1 as [|d r Hd Hr IH]; cbn. split; constructor.
  destruct (digit_char_is d ltac:(lia)). destruct IH. split. constructor; auto. congruence.
Qed.
Lemma alld_inj s1 s2 : alld s1 -> alld s2 -> List.length s1 = List.length s2 -> svalue 0 s1 = svalue 0 s2 -> s1 = s2.
Proof.
  intros H1 H2 L E. rewrite !svalue_hval in E.
  apply hval_inj_len in E; auto using alld_dok; [|lia|now rewrite !map_length].
  apply (f_equal (map digit_char)) in E. now rewrite !map_digit_inv in E.
Qed.

Lemma str_of_numeral n : 0 < n -> numeral n (str_of n).
Proof.
  intros Hn. unfold str_of. replace (n <? 0) with false by lia. cbn [app].
  rewrite Z.abs_eq by lia.
  destruct (digits_spec 10 n ltac:(lia) ltac:(lia)) as (E & D & N).
  destruct (digits 10 n) as [|d r] eqn:Ed. cbn in E; lia.
  destruct (map_digit_char_alld _ D) as [A B]. repeat split.
  - apply alld_sdigit; auto.
  - rewrite svalue_hval, B. auto.
  - cbn. intros C. apply (f_equal digit_val) in C. inversion D; subst.
    destruct (digit_char_is d ltac:(lia)). rewrite H0 in C. vm_compute in C. lia.
Qed.
Lemma numeral_pos n s : numeral n s -> 0 < n.
Proof.
  intros (A & E & N). destruct s as [|c r]; [easy|]. apply alld_sdigit in A. inversion A; subst.
  rewrite svalue_hval. cbn [map].
  pose proof (hval_lb 10 (digit_val c) (map digit_val r) ltac:(lia) (alld_dok _ A)).
  assert (0 < 10 ^ Z.of_nat (List.length (map digit_val r))) by (apply Z.pow_pos_nonneg; lia).
  assert (digit_val c <> 0). { intros C. apply N. rewrite <- (digit_inv c), C by auto. reflexivity. }
  specialize (H H3). lia.
Qed.
Lemma numeral_unique n s1 s2 : numeral n s1 -> numeral n s2 -> s1 = s2.
Proof.
  intros (A1 & E1 & N1) (A2 & E2 & N2). apply alld_sdigit in A1, A2.
  rewrite svalue_hval in E1, E2.
  assert (map digit_val s1 = map digit_val s2).
  { apply (hval_inj 10); auto using alld_dok; try lia.
    - destruct s1 as [|c r]; [easy|]. cbn. intros C. apply N1. inversion A1; subst. rewrite <- (digit_inv c), C by auto. reflexivity.
    - destruct s2 as [|c r]; [easy|]. cbn. intros C. apply N2. inversion A2; subst. rewrite <- (digit_inv c), C by auto. reflexivity. }
  apply (f_equal (map digit_char)) in H. now rewrite !map_digit_inv in H.
Qed.
Lemma numeral_str_of n s : numeral n s -> s = str_of n.
Proof. intros H. apply (numeral_unique n); auto. apply str_of_numeral. eapply numeral_pos; eauto. Qed.

(* str_of of a small non-negative number: digits, bounded length, value *)
Lemma str_of_alld n : 0 <= n -> alld (str_of n) /\ svalue 0 (str_of n) = n /\ str_of n <> [].
Proof.
  intros Hn. destruct (Z.eq_dec n 0).
  - subst. repeat split; try constructor; auto. discriminate.
  - destruct (str_of_numeral n ltac:(lia)) as (A & E & N). split. now apply alld_sdigit. split; auto.
    intros C. now rewrite C in N.
Qed.
Lemma str_of_len n k : (1 <= k)%nat -> 0 <= n < 10 ^ Z.of_nat k -> (List.length (str_of n) <= k)%nat.
Proof.
  intros Hk Hn. unfold str_of. replace (n <? 0) with false by lia. cbn [app].
  rewrite Z.abs_eq by lia. pose proof (digits_len 10 n k ltac:(lia) Hn).
  destruct (digits 10 n). cbn; lia. now rewrite map_length.
Qed.

Lemma alld_head_sign c s : alld (c :: s) -> Ascii.eqb c "-"%char || Ascii.eqb c "+"%char = false.
Proof.
  intros H. inversion H; subst. asc (fun c => implb (is_digit c) (negb (Ascii.eqb c "-"%char || Ascii.eqb c "+"%char))) c.
  rewrite H2 in H0. cbn in H0. now destruct (_ || _).
Qed.
Lemma alld_app a b : alld (a ++ b) <-> alld a /\ alld b.
Proof. unfold alld. apply Forall_app. Qed.
Lemma repeat0_alld k : alld (repeat "0"%char k).
Proof. induction k; cbn; constructor; auto. Qed.
Lemma svalue_repeat0 k s : svalue 0 (repeat "0"%char k ++ s) = svalue 0 s.
Proof. induction k; cbn; auto. Qed.
Lemma zfill_alld w s : alld s -> zfill w s = repeat "0"%char (w - List.length s) ++ s.
Proof.
  intros H. unfold zfill. destruct s. now rewrite app_nil_r. now rewrite (alld_head_sign a s H).
Qed.
Lemma zfill_spec w s : alld s -> (List.length s <= w)%nat ->
  alld (zfill w s) /\ List.length (zfill w s) = w /\ svalue 0 (zfill w s) = svalue 0 s.
Proof.
  intros H L. rewrite zfill_alld by auto. repeat split.
  - apply alld_app. split; auto using repeat0_alld.
  - rewrite app_length, repeat_length. lia.
  - apply svalue_repeat0.
Qed.
Lemma zfill_str n k : (1 <= k)%nat -> 0 <= n < 10 ^ Z.of_nat k ->
  alld (zfill k (str_of n)) /\ List.length (zfill k (str_of n)) = k /\ svalue 0 (zfill k (str_of n)) = n.
Proof.
  intros Hk Hn. destruct (str_of_alld n ltac:(lia)) as (A & E & _).
  destruct (zfill_spec k (str_of n) A (str_of_len n k Hk Hn)) as (P & Q & R). rewrite R. auto.
Qed.

(* ---- int() on a digit string ---- *)
Lemma digit_not_space c : is_digit c = true -> is_space c = false.
Proof. unfold is_digit, is_space. lia. Qed.
Lemma lstrip_alld s : alld s -> lstrip s = s.
Proof. destruct 1; cbn; auto. now rewrite digit_not_space. Qed.
Lemma alld_rev s : alld s -> alld (rev s).
Proof. intros H. apply Forall_rev. auto. Qed.
Lemma strip_alld s : alld s -> strip s = s.
Proof.
  intros H. unfold strip. rewrite (lstrip_alld s H), lstrip_alld by now apply alld_rev. apply rev_involutive.
Qed.
Lemma int_digits_alld s a b : alld s -> (s <> [] \/ b = true) -> int_digits s a b = Some (svalue a s).
Proof.
  intros H. revert a b. induction H as [|c r Hc Hr IH]; cbn [int_digits svalue]; intros a b N.
  - destruct N as [N | ->]. easy. reflexivity.
  - rewrite Hc. rewrite IH by auto. f_equal. unfold sval, digit_val. f_equal. lia.
Qed.
Lemma py_int_alld s : alld s -> s <> [] -> py_int s = Ok (svalue 0 s).
Proof.
  intros H N. unfold py_int. rewrite strip_alld by auto. destruct s as [|c r]; [easy|].
  pose proof (alld_head_sign c r H) as E. apply orb_false_iff in E. destruct E as [E1 E2]. rewrite E1, E2.
  rewrite int_digits_alld by auto. reflexivity.
Qed.
Lemma isdecimal_alld s : isdecimal s = true <-> alld s /\ s <> [].
Proof.
  unfold isdecimal. destruct s. split. easy. now intros [_ H].
  unfold alld. rewrite forallb_forall, Forall_forall. split.
  intros H; split; auto. discriminate. now intros [H _].
Qed.
Lemma isdecimal_bad s c : In c s -> is_digit c = false -> isdecimal s = false.
Proof.
  intros H D. destruct (isdecimal s) eqn:E; auto. apply isdecimal_alld in E. destruct E as [A _].
  unfold alld in A. rewrite Forall_forall in A. rewrite A in D by auto. easy.
Qed.

(* ---- base 62 ---- *)
Lemma base62_at_spec v : 0 <= v < 62 -> exists c, base62_at v = Ok c /\ base62_map c = Ok v /\ b62 c v.
Proof.
  intros H.
  assert (K : forallb (fun v => match base62_at v with
      | Ok c => match base62_map c with Ok w => Z.eqb v w &&
          (let n := Z.of_nat (nat_of_ascii c) in
           ((48 <=? n) && (n <=? 57) && (v =? n - 48)) || ((65 <=? n) && (n <=? 90) && (v =? n - 55)) ||
           ((97 <=? n) && (n <=? 122) && (v =? n - 61))) | _ => false end
      | _ => false end) (map Z.of_nat (seq 0 62)) = true) by (vm_compute; reflexivity).
  rewrite forallb_forall in K. specialize (K v). rewrite in_map_iff in K.
  assert (exists x : nat, Z.of_nat x = v /\ In x (seq 0 62)) as Hx.
  { exists (Z.to_nat v). rewrite in_seq. lia. }
  specialize (K Hx). destruct (base62_at v) as [c|]; [|easy]. exists c. split; auto.
  destruct (base62_map c) as [w|]; [|easy]. assert (v = w) by lia. subst w. split; auto. unfold b62. clear Hx H. cbv zeta in *. lia.
Qed.
Lemma base62_at_err' v e : base62_at v = Err e -> e = IndexError.
Proof. unfold base62_at. set (j := if v <? 0 then _ else _). destruct (j <? 0). congruence. destruct (nth_error _ _); congruence. Qed.
Lemma base62_at_err v e : 0 <= v -> base62_at v = Err e -> e = IndexError /\ 62 <= v.
Proof.
  intros H E. destruct (Z.ltb_spec v 62).
  - destruct (base62_at_spec v ltac:(lia)) as (c & Ec & _). congruence.
  - split; auto. now apply base62_at_err' in E.
Qed.
Lemma base62_map_b62 c v : base62_map c = Ok v -> b62 c v.
Proof.
  asc (fun c => match base62_map c with Ok v => (let n := Z.of_nat (nat_of_ascii c) in
           ((48 <=? n) && (n <=? 57) && (v =? n - 48)) || ((65 <=? n) && (n <=? 90) && (v =? n - 55)) ||
           ((97 <=? n) && (n <=? 122) && (v =? n - 61))) | _ => true end) c.
  intros E. rewrite E in H. unfold b62. cbv zeta in *. lia.
Qed.
Lemma b62_base62_map c v : b62 c v -> base62_map c = Ok v.
Proof.
  intros H.
  asc (fun c => match base62_map c with Ok _ => true | _ => (let n := Z.of_nat (nat_of_ascii c) in
           negb (((48 <=? n) && (n <=? 57)) || ((65 <=? n) && (n <=? 90)) ||
           ((97 <=? n) && (n <=? 122)))) end) c.
  destruct (base62_map c) as [w|] eqn:E. apply base62_map_b62 in E. unfold b62 in *. cbv zeta in *. f_equal. lia.
  unfold b62 in H. cbv zeta in *. lia.
Qed.
Lemma b62_range c v : b62 c v -> 0 <= v < 62.
Proof. unfold b62. cbv zeta. lia. Qed.
Lemma is_digit_map c : is_digit c = true -> base62_map c = Ok (digit_val c).
Proof. intros H. apply b62_base62_map. unfold b62, is_digit, digit_val in *. cbv zeta in *. lia. Qed.

Lemma mapM_base62 l : dok 62 l -> exists cs, mapM base62_at l = Ok cs /\
  Forall2 b62 cs l /\ List.length cs = List.length l.
Proof.
  induction 1 as [|d r Hd Hr IH]. exists []. cbn. auto.
  destruct IH as (cs & E & F & L). destruct (base62_at_spec d Hd) as (c & Ec & _ & Bc).
  exists (c :: cs). cbn. rewrite Ec, E. cbn. auto.
Qed.
Lemma Forall2_len {A B} (R : A -> B -> Prop) l l' : Forall2 R l l' -> List.length l = List.length l'.
Proof. induction 1; cbn; congruence. Qed.
Lemma sum62_spec cs l : Forall2 b62 cs l -> sum62 cs = Ok (hval 62 0 l).
Proof.
  induction 1 as [|c v cs l B F IH]. reflexivity.
  cbn [sum62]. rewrite (b62_base62_map c v B). cbn [bind]. rewrite IH. cbn [bind].
  cbn [hval]. rewrite (hval_acc 62 l (62*0+v)). rewrite (Forall2_len _ _ _ F). do 2 f_equal.
Qed.
Lemma zfill62 cs l : Forall2 b62 cs l -> (List.length cs <= 4)%nat ->
  exists a b c d va vb vc vd, zfill 4 cs = [a; b; c; d] /\ b62 a va /\ b62 b vb /\ b62 c vc /\ b62 d vd /\
    hval 62 0 l = 238328 * va + 3844 * vb + 62 * vc + vd.
Proof.
  intros F L.
  assert (Hz : zfill 4 cs = repeat "0"%char (4 - List.length cs) ++ cs).
  { unfold zfill. destruct F as [|c v cs l B F]. reflexivity.
    replace (Ascii.eqb c "-"%char || Ascii.eqb c "+"%char) with false. reflexivity.
    apply b62_base62_map in B.
    asc (fun c => match base62_map c with Ok _ => negb (Ascii.eqb c "-"%char || Ascii.eqb c "+"%char) | _ => true end) c.
    rewrite B in H. now destruct (_ || _). }
  rewrite Hz. assert (b62 "0"%char 0) by (unfold b62; cbn; lia).
  destruct F as [|c1 v1 ? ? B1 F]; [|destruct F as [|c2 v2 ? ? B2 F]; [|destruct F as [|c3 v3 ? ? B3 F]; [|destruct F as [|c4 v4 ? ? B4 F]; [|destruct F as [|c5 v5 ? ? B5 F]]]]];
  cbn [repeat app List.length Nat.sub hval] in *; try (cbn in L; lia);
  repeat eexists; eauto; lia.
Qed.

(* ---- C11 ---- *)
Lemma pack_numbered_ok n s : numeral n s -> 1 <= n <= 15396335 ->
  exists p, pack_numbered s = Ok p /\ List.length p = 5%nat /\ packed_number p n /\ unpack_numbered p = Ok s.
Proof.
  intros Hs Hn. rewrite (numeral_str_of n s Hs).
  destruct (str_of_alld n ltac:(lia)) as (A & E & Ne).
  unfold pack_numbered. rewrite py_int_alld, E by auto. cbn [bind].
  replace (15396335 <? n) with false by lia.
  destruct (Z.leb_spec n 99999) as [H|H].
  - destruct (zfill_str n 5 ltac:(lia) ltac:(cbn; lia)) as (P & Q & R).
    eexists. split; [reflexivity|]. split; auto. split.
    + left. repeat split; auto. now apply alld_sdigit.
    + unfold unpack_numbered.
      assert (zfill 5 (str_of n) <> []) by (intros C; rewrite C in Q; discriminate).
      rewrite (proj2 (isdecimal_alld _)) by auto.
      rewrite py_int_alld by auto. cbn [bind]. now rewrite R.
  - destruct (Z.leb_spec n 619999) as [H1|H1].
    + replace (100000 <=? n) with true by lia. cbn [andb].
      assert (10 <= n / 10000 < 62) by lia.
      destruct (base62_at_spec (n / 10000) ltac:(lia)) as (c & Ec & Em & Eb).
      rewrite Ec. cbn [bind].
      destruct (zfill_str (n mod 10000) 4 ltac:(lia) ltac:(cbn; lia)) as (P & Q & R).
      set (r := zfill 4 _) in *.
      assert (Hd : is_digit c = false). { unfold b62, is_digit in *. cbv zeta in *. lia. }
      eexists. split; [reflexivity|]. split. cbn; lia. split.
      * right; left. exists c, r, (n / 10000). repeat split; auto.
        -- rewrite sdigit_is. congruence.
        -- now apply alld_sdigit.
        -- rewrite R. lia.
      * unfold unpack_numbered. rewrite (isdecimal_bad (c :: r) c) by (auto; left; auto).
        cbn [at_ nth_error bind].
        replace (Ascii.eqb c "~"%char) with false.
        2:{ symmetry. apply Ascii.eqb_neq. intros ->. unfold b62 in Eb. cbn in Eb. lia. }
        rewrite Em. cbn [bind skipn].
        assert (r <> []) by (intros C; rewrite C in Q; discriminate).
        rewrite py_int_alld by auto. cbn [bind]. rewrite R. do 2 f_equal. lia.
    + replace (100000 <=? n) with true by lia. cbn [andb].
      destruct (digits_spec 62 (n - 620000) ltac:(lia) ltac:(lia)) as (V & D & _).
      pose proof (digits_len 62 (n - 620000) 4 ltac:(lia) ltac:(cbn; lia)) as L.
      destruct (mapM_base62 _ D) as (cs & Ec & F & Lc). rewrite Ec. cbn [bind].
      rewrite <- Lc in L.
      destruct (zfill62 cs _ F L) as (a & b & c & d & va & vb & vc & vd & Ez & Ba & Bb & Bc & Bd & Ev).
      rewrite Ez. eexists. split; [reflexivity|]. split; auto. split.
      * right; right. exists a, b, c, d, va, vb, vc, vd. repeat split; auto. lia.
      * unfold unpack_numbered. rewrite (isdecimal_bad _ "~"%char) by (auto; left; auto).
        cbn [at_ nth_error bind]. replace (Ascii.eqb "~" "~") with true by reflexivity.
        cbn [skipn]. rewrite (sum62_spec _ [va; vb; vc; vd]) by (repeat (apply Forall2_cons; [assumption|]); apply Forall2_nil).
        cbn [bind hval]. do 2 f_equal. lia.
Qed.

Lemma pack_numbered_large n s : numeral n s -> 15396335 < n -> pack_numbered s = Err ValueError.
Proof.
  intros Hs Hn. rewrite (numeral_str_of n s Hs).
  destruct (str_of_alld n ltac:(lia)) as (A & E & Ne).
  unfold pack_numbered. rewrite py_int_alld, E by auto. cbn [bind].
  now replace (15396335 <? n) with true by lia.
Qed.

Lemma pack_numbered_inj n1 n2 s1 s2 p : numeral n1 s1 -> numeral n2 s2 ->
  1 <= n1 <= 15396335 -> 1 <= n2 <= 15396335 ->
  pack_numbered s1 = Ok p -> pack_numbered s2 = Ok p -> n1 = n2.
Proof.
  intros H1 H2 R1 R2 P1 P2.
  destruct (pack_numbered_ok n1 s1 H1 R1) as (p1 & Q1 & _ & _ & U1).
  destruct (pack_numbered_ok n2 s2 H2 R2) as (p2 & Q2 & _ & _ & U2).
  assert (p1 = p) by congruence. assert (p2 = p) by congruence. subst.
  assert (s1 = s2) by congruence. subst.
  destruct H1 as (_ & E1 & _), H2 as (_ & E2 & _). congruence.
Qed.

(* ---- C12 ---- *)
Lemma upper_not_digit c : upper c -> is_digit c = false.
Proof. unfold upper, is_digit. lia. Qed.

Lemma svalue4 a b c d : svalue 0 [a; b; c; d] = 100 * svalue 0 [a; b] + svalue 0 [c; d].
Proof. cbn [svalue]. ring. Qed.

Lemma numeral4 y0 y1 y2 y3 : Forall sdigit [y0; y1; y2; y3] -> 1000 <= svalue 0 [y0; y1; y2; y3] ->
  numeral (svalue 0 [y0; y1; y2; y3]) [y0; y1; y2; y3].
Proof.
  intros F H. repeat split; auto. intros ->.
  apply alld_sdigit in F. rewrite svalue_hval in H. apply alld_dok in F.
  cbn [map] in *. change (digit_val "0"%char) with 0 in *.
  inversion F as [|? ? _ F1]; subst. inversion F1 as [|? ? K1 F2]; subst.
  inversion F2 as [|? ? K2 F3]; subst. inversion F3 as [|? ? K3 _]; subst.
  cbn [hval] in H. lia.
Qed.

Lemma str_of_digit n : 0 <= n <= 9 -> str_of n = [digit_char n].
Proof.
  intros H.
  assert (n = 0 \/ n = 1 \/ n = 2 \/ n = 3 \/ n = 4 \/ n = 5 \/ n = 6 \/ n = 7 \/ n = 8 \/ n = 9) as K by lia.
  repeat (destruct K as [->|K]; [reflexivity|]). subst; reflexivity.
Qed.

Lemma cycle_pack_ok cyc : cycle cyc -> exists a b va vb, cycle_pack cyc = Ok [a; b] /\
  base62_map a = Ok va /\ base62_map b = Ok vb /\
  (if va * 10 + vb =? 0 then [] else str_of (va * 10 + vb)) = cyc.
Proof.
  intros [-> | (n & Hs & Hn)].
  - exists "0"%char, "0"%char, 0, 0. repeat split.
  - rewrite (numeral_str_of n cyc Hs). destruct (str_of_alld n ltac:(lia)) as (A & E & Ne).
    unfold cycle_pack. destruct (str_of n) as [|x xs] eqn:Es; [easy|]. rewrite <- Es in *.
    rewrite py_int_alld, E by auto. cbn [bind].
    destruct (Z.leb_spec n 99).
    + destruct (zfill_str n 2 ltac:(lia) ltac:(cbn; lia)) as (P & Q & R).
      revert P Q R. destruct (zfill 2 (str_of n)) as [|a [|b [|]]]; intros P Q R; try discriminate.
      pose proof (Forall_inv P) as Pa. pose proof (Forall_inv (Forall_inv_tail P)) as Pb. cbn beta in Pa, Pb.
      exists a, b, (digit_val a), (digit_val b).
      split; [reflexivity|]. split; [now apply is_digit_map|]. split; [now apply is_digit_map|].
      cbn [svalue] in R. change sval with digit_val in R.
      replace (digit_val a * 10 + digit_val b) with n by lia.
      replace (n =? 0) with false by lia. auto.
    + destruct (base62_at_spec (n / 10) ltac:(lia)) as (c & Ec & Em & Eb).
      rewrite Ec. cbn [bind]. rewrite (str_of_digit (n mod 10)) by lia.
      exists c, (digit_char (n mod 10)), (n / 10), (n mod 10).
      destruct (digit_char_is (n mod 10) ltac:(lia)) as [D1 D2].
      repeat split; auto.
      * now rewrite is_digit_map, D2.
      * replace (n / 10 * 10 + n mod 10) with n by lia. now replace (n =? 0) with false by lia.
Qed.

Lemma cycle_no_dash cyc : cycle cyc -> existsb (Ascii.eqb "-"%char) cyc = false.
Proof.
  intros [-> | (n & (A & _) & _)]; auto. apply alld_sdigit in A. induction A; auto.
  cbn [existsb]. rewrite IHA, orb_false_r. apply Ascii.eqb_neq. intros <-. discriminate.
Qed.

Lemma pack_provisional_ok d : provisional d ->
  exists p, pack_provisional d = Ok p /\ List.length p = 7%nat /\ unpack_provisional p = Ok d /\
    exists c c1 c2 l1 r, p = c :: c1 :: c2 :: l1 :: r /\ upper l1 /\ is_digit c1 = true /\ (exists v, base62_map c = Ok v).
Proof.
  intros (y0 & y1 & y2 & y3 & h & l & cyc & -> & F & Y & Uh & hI & hZ & Ul & lI & C).
  pose proof F as F'. apply alld_sdigit in F'.
  assert (A0 : is_digit y0 = true) by (inversion F'; auto).
  assert (A1 : is_digit y1 = true) by (inversion F' as [|? ? ? F1]; inversion F1; auto).
  assert (A2 : is_digit y2 = true) by (inversion F' as [|? ? ? F1]; inversion F1 as [|? ? ? F2]; inversion F2; auto).
  assert (A3 : is_digit y3 = true) by (inversion F' as [|? ? ? F1]; inversion F1 as [|? ? ? F2]; inversion F2 as [|? ? ? F3]; inversion F3; auto).
  assert (Vy : 10 <= svalue 0 [y0; y1] < 62).
  { rewrite svalue4 in Y. pose proof (digit_range _ A2). pose proof (digit_range _ A3).
    cbn [svalue] in *. change sval with digit_val in *. lia. }
  destruct (base62_at_spec (svalue 0 [y0; y1]) ltac:(lia)) as (cy & Ec & Em & Eb).
  destruct (cycle_pack_ok cyc C) as (a & b & va & vb & Ep & Ea & Ebb & En).
  unfold pack_provisional. cbn [app List.length].
  replace (_ <? 6)%nat with false by (symmetry; apply Nat.ltb_ge; lia).
  unfold slice. cbn [Nat.sub skipn firstn].
  rewrite (proj2 (isdecimal_alld [y0; y1; y2])).
  2:{ split; [|easy]. repeat constructor; auto. }
  cbn [negb at_ nth_error bind].
  replace (Ascii.eqb " " " ") with true by reflexivity. cbn [negb existsb].
  rewrite (cycle_no_dash cyc C).
  assert (Nd : forall c, is_digit c = true -> Ascii.eqb "-"%char c = false).
  { intros c Hc. apply Ascii.eqb_neq. intros <-. discriminate. }
  assert (Nu : forall c, upper c -> Ascii.eqb "-"%char c = false).
  { intros c Hc. apply Ascii.eqb_neq. intros <-. unfold upper in Hc. cbn in Hc. lia. }
  rewrite (Nd y0), (Nd y1), (Nd y2), (Nd y3), (Nu h), (Nu l) by auto. replace (Ascii.eqb "-" " ") with false by reflexivity. cbn [orb].
  rewrite py_int_alld; [|repeat constructor; auto|easy]. cbn [bind]. rewrite Ec. cbn [bind].
  apply Ascii.eqb_neq in hI, hZ. rewrite hI, hZ. cbn [orb].
  rewrite (upper_not_digit h), (upper_not_digit l) by auto. cbn [orb].
  cbn [skipn]. rewrite Ep. cbn [bind app].
  eexists. split; [reflexivity|]. split; [reflexivity|]. split.
  - unfold unpack_provisional. rewrite A2, A3. cbn [negb orb]. rewrite Em. cbn [bind].
    rewrite py_int_alld; [|repeat constructor; auto|easy]. cbn [bind].
    rewrite (upper_not_digit h), (upper_not_digit l) by auto. cbn [orb].
    rewrite Ea. cbn [bind]. rewrite Ebb. cbn [bind]. rewrite En.
    replace (svalue 0 [y0; y1] * 100 + svalue 0 [y2; y3]) with (svalue 0 [y0; y1; y2; y3]) by (rewrite svalue4; ring).
    rewrite <- (numeral_str_of _ _ (numeral4 y0 y1 y2 y3 F ltac:(lia))). reflexivity.
  - do 5 eexists. split; [reflexivity|]. eauto.
Qed.

Lemma provisional_inj d1 d2 p : provisional d1 -> provisional d2 ->
  pack_provisional d1 = Ok p -> pack_provisional d2 = Ok p -> d1 = d2.
Proof.
  intros H1 H2 P1 P2. destruct (pack_provisional_ok _ H1) as (p1 & Q1 & _ & U1 & _).
  destruct (pack_provisional_ok _ H2) as (p2 & Q2 & _ & U2 & _). congruence.
Qed.

(* ---- C13 ---- *)
Lemma pack_survey_ok d : survey d ->
  exists p, pack_survey d = Ok p /\ List.length p = 7%nat /\ unpack_survey p = Ok d /\
   (firstn 3 p = s_ "PLS" \/ firstn 3 p = s_ "T1S" \/ firstn 3 p = s_ "T2S" \/ firstn 3 p = s_ "T3S").
Proof.
  intros (n & num & tail & N & L & -> & Ht).
  destruct num as [|a [|b [|c [|e [|]]]]]; try discriminate.
  pose proof N as (A & V & _). apply alld_sdigit in A.
  assert (Hp : py_int [a; b; c; e] = Ok n) by (rewrite py_int_alld, V by (auto; easy); auto).
  cbn in Ht. destruct Ht as [<-|[<-|[<-|[<-|[]]]]];
  unfold pack_survey; cbn -[zfill unpack_survey List.length];
  rewrite zfill_alld by auto; cbn -[unpack_survey];
  (eexists; split; [reflexivity|]; split; [reflexivity|]; split;
   [unfold unpack_survey, slice; cbn -[py_int]; rewrite Hp; cbn -[str_of];
    rewrite <- (numeral_str_of _ _ N); reflexivity|auto]).
Qed.

(* ---- int() of a string containing a letter fails ---- *)
Definition intchar (c : ascii) : bool :=
  is_digit c || is_space c || Ascii.eqb c "_"%char || Ascii.eqb c "-"%char || Ascii.eqb c "+"%char.
Lemma int_digits_char s : forall a b z, int_digits s a b = Some z -> forall c, In c s -> intchar c = true.
Proof.
  induction s as [|x r IH]; cbn; intros a b z H c Hc. easy.
  destruct (is_digit x) eqn:E.
  - destruct Hc as [<-|Hc]. unfold intchar. now rewrite E. eapply IH; eauto.
  - destruct (Ascii.eqb x "_") eqn:E2; cbn in H; [|easy]. destruct b; [|easy].
    destruct Hc as [<-|Hc]. unfold intchar. rewrite E2. now rewrite !orb_true_r.
    destruct r; [easy|]. eapply IH; eauto.
Qed.
Lemma lstrip_In s c : In c s -> is_space c = true \/ In c (lstrip s).
Proof.
  induction s as [|x r IH]; cbn. easy. intros [<-|H]. destruct (is_space x); auto. right; left; auto.
  destruct (is_space x); auto. right. right. auto.
Qed.
Lemma py_int_bad s c : In c s -> intchar c = false -> py_int s = Err ValueError.
Proof.
  intros H Hc.
  assert (Hsp : is_space c = false). { unfold intchar in Hc. repeat rewrite orb_false_iff in Hc. tauto. }
  assert (K : In c (strip s)).
  { unfold strip. rewrite <- in_rev. destruct (lstrip_In s c H); [congruence|].
    destruct (lstrip_In (rev (lstrip s)) c) as [|]; auto. now rewrite <- in_rev. congruence. }
  unfold py_int. destruct (strip s) as [|x r] eqn:E; [easy|].
  assert (G : In c r -> forall a b, int_digits r a b = None).
  { intros I a b. destruct (int_digits r a b) eqn:Z0; auto. rewrite (int_digits_char _ _ _ _ Z0 c I) in Hc. easy. }
  destruct (Ascii.eqb x "-") eqn:Em.
  - destruct K as [->|K]. unfold intchar in Hc. rewrite Em in Hc. rewrite !orb_true_r in Hc. easy. now rewrite G.
  - destruct (Ascii.eqb x "+") eqn:Ep.
    + destruct K as [->|K]. unfold intchar in Hc. rewrite Ep in Hc. rewrite !orb_true_r in Hc. easy. now rewrite G.
    + destruct (int_digits (x :: r) 0 false) eqn:Z0; auto. rewrite (int_digits_char _ _ _ _ Z0 c K) in Hc. easy.
Qed.

Lemma upper_not_intchar c : upper c -> intchar c = false.
Proof.
  intros H. asc (fun c => implb (Nat.leb 65 (nat_of_ascii c) && Nat.leb (nat_of_ascii c) 90) (negb (intchar c))) c.
  unfold upper in H. rewrite (proj2 (Nat.leb_le _ _)), (proj2 (Nat.leb_le _ _)) in H0 by lia. cbn in H0. now destruct (intchar c).
Qed.

(* ---- C15 ---- *)
Lemma dispatch_numbered d : numbered d -> pack_mpc d = pack_numbered d /\ bind (pack_mpc d) unpack_mpc = Ok d.
Proof.
  intros (n & H & R). destruct (pack_numbered_ok n d H R) as (p & E & _ & _ & U).
  unfold pack_mpc. rewrite E. cbn [or_else bind]. split; auto. unfold unpack_mpc. now rewrite U.
Qed.

Lemma dispatch_provisional d : provisional d -> pack_mpc d = pack_provisional d /\ bind (pack_mpc d) unpack_mpc = Ok d.
Proof.
  intros H. destruct (pack_provisional_ok d H) as (p & E & _ & U & (c & c1 & c2 & l1 & r & Ep & Ul & Dc & v & Ev)).
  assert (N : pack_numbered d = Err ValueError).
  { destruct H as (y0 & y1 & y2 & y3 & h & l & cyc & -> & _ & _ & Uh & _).
    unfold pack_numbered. rewrite (py_int_bad _ h). reflexivity. cbn. auto 10. now apply upper_not_intchar. }
  unfold pack_mpc. rewrite N. cbn [or_else]. rewrite E. cbn [or_else bind]. split; auto.
  unfold unpack_mpc. rewrite U.
  assert (Nu : unpack_numbered p = Err ValueError).
  { unfold unpack_numbered. rewrite (isdecimal_bad p l1). 2: subst; cbn; auto 10. 2: now apply upper_not_digit.
    subst p. cbn [at_ nth_error bind]. replace (Ascii.eqb c "~"%char) with false.
    2:{ symmetry. apply Ascii.eqb_neq. intros ->. vm_compute in Ev. easy. }
    rewrite Ev. cbn [bind skipn]. rewrite (py_int_bad _ l1). reflexivity. cbn; auto. now apply upper_not_intchar. }
  rewrite Nu. reflexivity.
Qed.

Lemma dispatch_survey d : survey d -> pack_mpc d = pack_survey d /\ bind (pack_mpc d) unpack_mpc = Ok d.
Proof.
  intros H. destruct (pack_survey_ok d H) as (p & E & L & U & T).
  pose proof H as (n & num & tail & N & Ln & Ed & Ht).
  assert (Pn : pack_numbered d = Err ValueError).
  { unfold pack_numbered. destruct Ht as [<-|Ht].
    - rewrite (py_int_bad d "P"%char). reflexivity. rewrite Ed. apply in_or_app. right. cbn. auto. reflexivity.
    - rewrite (py_int_bad d "T"%char). reflexivity. rewrite Ed. apply in_or_app. right.
      destruct Ht as [<-|[<-|[<-|[]]]]; cbn; auto. reflexivity. }
  assert (Pp : pack_provisional d = Err ValueError).
  { destruct num as [|a [|b [|c [|e [|]]]]]; try discriminate.
    destruct N as (A & _). apply alld_sdigit in A. rewrite Ed. unfold pack_provisional.
    assert (isdecimal [a; b; c] = true) as K.
    { apply isdecimal_alld. inversion A; subst; inversion H3; subst; inversion H5; subst. split; [|easy]. repeat constructor; auto. }
    destruct Ht as [<-|[<-|[<-|[<-|[]]]]]; cbn -[isdecimal];
    rewrite K; cbn; rewrite !orb_true_r; reflexivity. }
  unfold pack_mpc. rewrite Pn. cbn [or_else]. rewrite Pp. cbn [or_else]. rewrite E. cbn [or_else bind]. split; auto.
  unfold unpack_mpc.
  assert (exists x y z r, p = x :: y :: z :: r /\ (List.length r = 4)%nat /\ ((x = "P" /\ y = "L" /\ z = "S") \/ (x = "T" /\ z = "S"))%char) as K.
  { destruct p as [|x [|y [|z r]]]; try discriminate. exists x, y, z, r. split; auto. split. cbn in L. lia.
    cbn in T. destruct T as [T|[T|[T|T]]]; injection T; intros; subst; auto. }
  destruct K as (x & y & z & r & -> & Lr & K).
  assert (Nu : unpack_numbered (x :: y :: z :: r) = Err ValueError).
  { unfold unpack_numbered. rewrite (isdecimal_bad _ x). 2: cbn; auto. 2: destruct K as [(-> & _)|(-> & _)]; reflexivity.
    cbn [at_ nth_error bind].
    destruct K as [(-> & -> & ->)|(-> & ->)].
    - replace (Ascii.eqb "P" "~") with false by reflexivity.
      change (base62_map "P") with (@Ok Z 25). cbn [bind skipn].
      rewrite (py_int_bad _ "L"%char) by (cbn; auto). reflexivity.
    - replace (Ascii.eqb "T" "~") with false by reflexivity.
      change (base62_map "T") with (@Ok Z 29). cbn [bind skipn].
      rewrite (py_int_bad _ "S"%char) by (cbn; auto). reflexivity. }
  rewrite Nu. cbn [or_else].
  assert (Np : unpack_provisional (x :: y :: z :: r) = Err ValueError).
  { destruct r as [|r1 [|r2 [|r3 [|r4 [|]]]]]; try discriminate. unfold unpack_provisional.
    destruct K as [(-> & -> & ->)|(-> & ->)]; cbn. reflexivity. rewrite orb_true_r. reflexivity. }
  rewrite Np. cbn [or_else]. rewrite U. reflexivity.
Qed.

(* ---- C14: which exceptions can escape ---- *)
Lemma py_int_err s e : py_int s = Err e -> e = ValueError.
Proof.
  unfold py_int. destruct (strip s) as [|c r]. congruence.
  destruct (Ascii.eqb c "-"). destruct (int_digits r 0 false); congruence.
  destruct (Ascii.eqb c "+"). destruct (int_digits r 0 false); congruence.
  destruct (int_digits (c :: r) 0 false); congruence.
Qed.
Lemma base62_map_err c e : base62_map c = Err e -> e = KeyError.
Proof. unfold base62_map. destruct (index_of _ _); congruence. Qed.
Lemma at_err s i e : at_ s i = Err e -> e = IndexError /\ (List.length s <= i)%nat.
Proof.
  unfold at_. destruct (nth_error s i) eqn:E; try congruence. intros [= <-]. split; auto. now apply nth_error_None.
Qed.
Lemma sum62_err s e : sum62 s = Err e -> e = KeyError.
Proof.
  induction s as [|c r IH]; cbn. congruence. destruct (base62_map c) eqn:E; cbn.
  destruct (sum62 r); cbn; try congruence. intros [= <-]; auto. intros [= <-]. eapply base62_map_err; eauto.
Qed.
Lemma or_else_err {A} (x k : result A) e : or_else x k = Err e -> (x = Err e /\ e <> ValueError) \/ (x = Err ValueError /\ k = Err e).
Proof. destruct x as [a|e']. discriminate. destruct e'; cbn; intros H; try (left; split; [assumption|injection H as <-; discriminate]). auto. Qed.

Lemma pack_numbered_err d e : pack_numbered d = Err e -> e = ValueError.
Proof.
  unfold pack_numbered. destruct (py_int d) as [n|e'] eqn:E; cbn [bind]. 2: intros [= <-]; eapply py_int_err; eauto.
  destruct (Z.ltb_spec 15396335 n). congruence. destruct (Z.leb_spec n 99999). congruence.
  destruct ((100000 <=? n) && (n <=? 619999)) eqn:R.
  - destruct (base62_at_spec (n / 10000) ltac:(lia)) as (c & Ec & _). rewrite Ec. discriminate.
  - destruct (digits_spec 62 (n - 620000) ltac:(lia) ltac:(lia)) as (_ & D & _).
    destruct (mapM_base62 _ D) as (cs & Ec & _). rewrite Ec. discriminate.
Qed.

(* a six-character 'YYYY X', a year beyond 61xx, a cycle count of 620 or more: IndexError *)
Definition prov_index_error (d : str) : Prop :=
  exists y0 y1 y2 y3 h r, d = y0 :: y1 :: y2 :: y3 :: " "%char :: h :: r /\
    Forall sdigit [y0; y1; y2] /\
    (r = [] \/ 62 <= svalue 0 [y0; y1] \/ exists l cyc n, r = l :: cyc /\ py_int cyc = Ok n /\ 620 <= n).
Definition survey_index_error (d : str) : Prop := skipn 5 d = s_ "T-".

Lemma pack_provisional_err d e : pack_provisional d = Err e ->
  e = ValueError \/ (e = IndexError /\ prov_index_error d).
Proof.
  unfold pack_provisional. destruct (Nat.ltb_spec (List.length d) 6). intros [= <-]; auto.
  destruct d as [|y0 [|y1 [|y2 [|y3 [|sp [|h r]]]]]]; try (cbn in *; lia).
  unfold slice. cbn [Nat.sub skipn firstn at_ nth_error bind].
  destruct (isdecimal [y0; y1; y2]) eqn:D; cbn [negb]. 2: intros [= <-]; auto.
  apply isdecimal_alld in D. destruct D as [D _].
  destruct (Ascii.eqb_spec sp " "); cbn [negb]. 2: intros [= <-]; auto. subst sp.
  destruct (existsb _ _) eqn:Nd. intros [= <-]; auto.
  assert (A0 : is_digit y0 = true) by (inversion D; auto).
  assert (A1 : is_digit y1 = true) by (inversion D as [|? ? ? F1]; inversion F1; auto).
  rewrite py_int_alld; [|repeat constructor; auto|easy]. cbn [bind].
  assert (Hy : 0 <= svalue 0 [y0; y1]). { cbn [svalue]. change sval with digit_val. pose proof (digit_range _ A0). pose proof (digit_range _ A1). lia. }
  assert (PE : forall P : Prop, P -> (r = [] \/ 62 <= svalue 0 [y0; y1] \/ (exists l cyc n, r = l :: cyc /\ py_int cyc = Ok n /\ 620 <= n)) -> prov_index_error (y0 :: y1 :: y2 :: y3 :: " "%char :: h :: r)).
  { intros P _ K. exists y0, y1, y2, y3, h, r. split; auto. split; auto. now apply alld_sdigit. }
  destruct (base62_at (svalue 0 [y0; y1])) as [y|e'] eqn:B; cbn [bind].
  2:{ apply base62_at_err in B; auto. intros [= <-]. right. split. tauto. apply (PE True); tauto. }
  destruct r as [|l cyc]; cbn [at_ nth_error bind]. intros [= <-]. right. split; auto. apply (PE True); auto.
  destruct (_ || _). intros [= <-]; auto.
  destruct (is_digit h || is_digit l). intros [= <-]; auto.
  cbn [skipn]. unfold cycle_pack. destruct cyc as [|c0 cyc0] eqn:Ecy. discriminate. rewrite <- Ecy.
  destruct (py_int cyc) as [n|e'] eqn:P; cbn [bind]. 2: intros [= <-]; left; eapply py_int_err; eauto.
  destruct (Z.leb_spec n 99). discriminate.
  destruct (base62_at (n / 10)) as [c|e'] eqn:B2; cbn [bind]. discriminate.
  subst cyc. intros [= <-]. apply base62_at_err in B2; [|lia]. right. split. tauto.
  apply (PE True); auto. right. right. exists l, (c0 :: cyc0), n. repeat split; auto. lia.
Qed.

Lemma str_eqb_eq a b : str_eqb a b = true <-> a = b.
Proof.
  unfold str_eqb. rewrite String.eqb_eq. split; [|congruence].
  intros H. apply (f_equal list_ascii_of_string) in H. now rewrite !list_ascii_of_string_of_list_ascii in H.
Qed.

Lemma pack_survey_err d e : pack_survey d = Err e -> e = ValueError \/ (e = IndexError /\ survey_index_error d).
Proof.
  unfold pack_survey. destruct (str_eqb (skipn 5 d) (s_ "P-L")). discriminate.
  destruct (str_eqb (slice (skipn 5 d) 0 2) (s_ "T-")) eqn:T. 2: intros [= <-]; auto.
  apply str_eqb_eq in T.
  destruct (at_ (skipn 5 d) 2) as [c|e'] eqn:A; cbn [bind].
  destruct (_ || _). discriminate. intros [= <-]; auto.
  intros [= <-]. apply at_err in A. right. split. tauto. unfold survey_index_error.
  destruct A as [_ A]. unfold slice in T. cbn [skipn Nat.sub] in T. rewrite firstn_all2 in T; auto.
Qed.

Lemma pack_mpc_err d e : pack_mpc d = Err e ->
  e = ValueError \/ (e = IndexError /\ (prov_index_error d \/ survey_index_error d)).
Proof.
  unfold pack_mpc. intros H. apply or_else_err in H. destruct H as [[H _]|[_ H]].
  left; eapply pack_numbered_err; eauto.
  apply or_else_err in H. destruct H as [[H _]|[_ H]]. apply pack_provisional_err in H. tauto.
  apply or_else_err in H. destruct H as [[H _]|[_ H]]. apply pack_survey_err in H. tauto.
  left. congruence.
Qed.

Lemma unpack_numbered_err p e : unpack_numbered p = Err e ->
  e = ValueError \/ (e = IndexError /\ p = []) \/ e = KeyError.
Proof.
  unfold unpack_numbered. destruct (isdecimal p).
  destruct (py_int p) eqn:E; cbn [bind]. discriminate. intros [= <-]. left; eapply py_int_err; eauto.
  destruct p as [|c r]; cbn [at_ nth_error bind]. intros [= <-]; auto.
  destruct (Ascii.eqb c "~").
  destruct (sum62 (skipn 1 (c :: r))) eqn:E; cbn [bind]. discriminate. intros [= <-]. apply sum62_err in E. auto.
  destruct (base62_map c) eqn:B; cbn [bind]. 2: intros [= <-]; apply base62_map_err in B; auto.
  destruct (py_int _) eqn:E; cbn [bind]. discriminate. intros [= <-]. left; eapply py_int_err; eauto.
Qed.
Lemma unpack_provisional_err p e : unpack_provisional p = Err e -> e = ValueError \/ e = KeyError.
Proof.
  destruct p as [|c0 [|c1 [|c2 [|l1 [|y1 [|y2 [|l2 [|]]]]]]]]; try (cbn; intros [= <-]; auto).
  unfold unpack_provisional. destruct (_ || _). intros [= <-]; auto.
  destruct (base62_map c0) eqn:B; cbn [bind]. 2: intros [= <-]; apply base62_map_err in B; auto.
  destruct (py_int _) eqn:E; cbn [bind]. 2: intros [= <-]; left; eapply py_int_err; eauto.
  destruct (_ || _). intros [= <-]; auto.
  destruct (base62_map y1) eqn:B1; cbn [bind]. 2: intros [= <-]; apply base62_map_err in B1; auto.
  destruct (base62_map y2) eqn:B2; cbn [bind]. 2: intros [= <-]; apply base62_map_err in B2; auto.
  discriminate.
Qed.
Lemma unpack_survey_err p e : unpack_survey p = Err e -> e = ValueError.
Proof.
  unfold unpack_survey. destruct (py_int _) eqn:E; cbn [bind]. 2: intros [= <-]; eapply py_int_err; eauto.
  destruct (str_eqb _ (s_ "PLS")). discriminate.
  destruct (str_eqb (slice p 0 3) (s_ "T1S")) eqn:T1; [|destruct (str_eqb (slice p 0 3) (s_ "T2S")) eqn:T2; [|destruct (str_eqb (slice p 0 3) (s_ "T3S")) eqn:T3]]; cbn [orb];
  try (apply str_eqb_eq in T1; rewrite T1; discriminate);
  try (apply str_eqb_eq in T2; rewrite T2; discriminate);
  try (apply str_eqb_eq in T3; rewrite T3; discriminate).
  congruence.
Qed.
Lemma unpack_mpc_err p e : unpack_mpc p = Err e ->
  e = ValueError \/ (e = IndexError /\ p = []) \/
  (e = KeyError /\ exists c, In c p /\ forall v, ~ b62 c v).
Proof.
  assert (KE : forall c e', base62_map c = Err e' -> forall v, ~ b62 c v).
  { intros c e' H v B. apply b62_base62_map in B. congruence. }
  assert (SE : forall s e', sum62 s = Err e' -> exists c, In c s /\ forall v, ~ b62 c v).
  { induction s as [|c r IH]; cbn; intros e' H. discriminate. destruct (base62_map c) eqn:B; cbn in H.
    destruct (sum62 r) eqn:R; cbn in H. discriminate. destruct (IH _ eq_refl) as (x & I & P). eauto.
    exists c. split; eauto. }
  unfold unpack_mpc. intros H. apply or_else_err in H. destruct H as [[H Ne]|[_ H]].
  - destruct (unpack_numbered_err _ _ H) as [|[|K]]; auto. subst. right. right. split; auto.
    unfold unpack_numbered in H. destruct (isdecimal p).
    destruct (py_int p) eqn:E; cbn [bind] in H. discriminate. apply py_int_err in E. congruence.
    destruct p as [|c r]; cbn [at_ nth_error bind] in H. discriminate.
    destruct (Ascii.eqb c "~").
    + destruct (sum62 (skipn 1 (c :: r))) eqn:E; cbn [bind] in H. discriminate.
      cbn [skipn] in E. destruct (SE _ _ E) as (x & I & P). exists x. split; auto. now right.
    + destruct (base62_map c) eqn:B; cbn [bind] in H.
      destruct (py_int _) eqn:E; cbn [bind] in H. discriminate. apply py_int_err in E. congruence.
      exists c. split. now left. eauto.
  - apply or_else_err in H. destruct H as [[H Ne]|[_ H]].
    + destruct (unpack_provisional_err _ _ H) as [|K]; auto. subst. right. right. split; auto.
      destruct p as [|c0 [|c1 [|c2 [|l1 [|y1 [|y2 [|l2 [|]]]]]]]]; try discriminate.
      unfold unpack_provisional in H. destruct (_ || _). discriminate.
      destruct (base62_map c0) eqn:B; cbn [bind] in H. 2: exists c0; split; [now left|eauto].
      destruct (py_int _) eqn:E; cbn [bind] in H. 2: apply py_int_err in E; congruence.
      destruct (_ || _). discriminate.
      destruct (base62_map y1) eqn:B1; cbn [bind] in H. 2: exists y1; split; [cbn; auto 10|eauto].
      destruct (base62_map y2) eqn:B2; cbn [bind] in H. discriminate. exists y2; split; [cbn; auto 10|eauto].
    + apply or_else_err in H. destruct H as [[H Ne]|[_ H]]. apply unpack_survey_err in H; auto. left; congruence.
Qed.

(* ---- packed dates ---- *)
From Coq Require Import QArith Qround Lqa.
Open Scope Z_scope.
Lemma qtrunc_nonneg (q : Q) : (0 <= q)%Q -> (inject_Z (qtrunc q) <= q)%Q /\ (q < inject_Z (qtrunc q) + 1)%Q /\ 0 <= qtrunc q.
Proof.
  intros H. unfold qtrunc. destruct (Qle_bool 0 q) eqn:E.
  - pose proof (Qfloor_le q). pose proof (Qlt_floor q). rewrite inject_Z_plus in H1.
    repeat split; auto. change 0 with (Qfloor 0). now apply Qfloor_resp_le.
  - apply Qle_bool_iff in H. congruence.
Qed.
Lemma inj_lt (a b : Z) : (inject_Z a < inject_Z b)%Q -> (a < b)%Z.
Proof. intros H. now rewrite <- Zlt_Qlt in H. Qed.

Lemma hms_spec f : (0 <= f < 1)%Q ->
  let '(h, m, s) := hms f in
  (0 <= h < 24)%Z /\ (0 <= m < 60)%Z /\ (0 <= s < 60)%Q /\
  (inject_Z (3600 * h + 60 * m) + s == 86400 * f)%Q.
Proof.
  intros Hf. unfold hms. cbv zeta.
  destruct (qtrunc_nonneg (24 * f)) as (A1 & A2 & A3). lra.
  set (h := qtrunc (24 * f)) in *.
  destruct (qtrunc_nonneg (60 * (24 * f - inject_Z h))) as (B1 & B2 & B3). lra.
  set (m := qtrunc (60 * (24 * f - inject_Z h))) in *.
  assert (h < 24)%Z. { apply inj_lt. change (inject_Z 24) with 24%Q. lra. }
  assert (m < 60)%Z. { apply inj_lt. change (inject_Z 60) with 60%Q. lra. }
  repeat split; auto.
  - assert (E : (inject_Z m / 60 == inject_Z m * (1#60))%Q) by (unfold Qdiv; reflexivity). rewrite E. lra.
  - assert (E : (inject_Z m / 60 == inject_Z m * (1#60))%Q) by (unfold Qdiv; reflexivity). rewrite E. lra.
  - rewrite inject_Z_plus, !inject_Z_mult. change (inject_Z 3600) with 3600%Q. change (inject_Z 60) with 60%Q. field.
Qed.

Lemma int32_b62 c v : b62 c v -> v < 32 -> int32 c = Ok v.
Proof.
  intros H Hv. unfold int32, is_digit, b62 in *. cbv zeta in *.
  destruct (_ && _) eqn:E1. f_equal; lia.
  destruct ((65 <=? _) && _) eqn:E2. f_equal; lia. lia.
Qed.

Lemma frac_val s : alld s ->
  (fold_right (fun c acc => (inject_Z (digit_val c) + acc) / 10)%Q 0%Q s
   == inject_Z (svalue 0 s) / inject_Z (10 ^ Z.of_nat (List.length s)))%Q.
Proof.
  induction 1 as [|c r Hc Hr IH]. reflexivity.
  cbn [fold_right]. rewrite IH.
  assert (P : ~ (inject_Z (10 ^ Z.of_nat (List.length r)) == 0)%Q).
  { assert (0 < 10 ^ Z.of_nat (List.length r)) by (apply Z.pow_pos_nonneg; lia).
    intros C. unfold Qeq in C. cbn in C. lia. }
  assert (E : svalue 0 (c :: r) = digit_val c * 10 ^ Z.of_nat (List.length r) + svalue 0 r).
  { rewrite !svalue_hval. cbn [map hval]. rewrite hval_acc, map_length. ring. }
  rewrite E. cbn [List.length]. rewrite Nat2Z.inj_succ, Z.pow_succ_r by lia.
  rewrite inject_Z_plus, !inject_Z_mult. change (inject_Z 10) with 10%Q. field. auto.
Qed.

Lemma unpack_date_ok c0 y1 y2 c3 c4 frac cent mo da :
  b62 c0 cent -> cent < 32 -> sdigit y1 -> sdigit y2 -> b62 c3 mo -> mo < 32 -> b62 c4 da -> da < 32 ->
  Forall sdigit frac ->
  exists t, unpack_date (c0 :: y1 :: y2 :: c3 :: c4 :: frac) =
    Ok ((100 * cent + svalue 0 [y1; y2], mo, da), t) /\
    match t with
    | None => frac = []
    | Some (h, m, s) => 0 <= h < 24 /\ 0 <= m < 60 /\ (0 <= s < 60)%Q /\
        (inject_Z (3600 * h + 60 * m) + s ==
         86400 * (inject_Z (svalue 0 frac) / inject_Z (10 ^ Z.of_nat (List.length frac))))%Q
    end.
Proof.
  intros B0 L0 D1 D2 B3 L3 B4 L4 F. unfold unpack_date. cbn [at_ nth_error bind].
  rewrite (int32_b62 c0 cent) by auto. cbn [bind]. unfold slice. cbn [skipn Nat.sub firstn].
  rewrite py_int_alld; [|repeat constructor; now apply sdigit_is|easy]. cbn [bind].
  rewrite (int32_b62 c3 mo), (int32_b62 c4 da) by auto. cbn [bind].
  rewrite (Z.mul_comm 100 cent).
  destruct frac as [|f fr]. exists None; split; reflexivity.
  change (Nat.ltb 5 (List.length (c0 :: y1 :: y2 :: c3 :: c4 :: f :: fr))) with true. cbv iota. cbn [skipn].
  apply alld_sdigit in F. unfold frac_of. rewrite (proj2 (isdecimal_alld (f :: fr))) by (split; auto; easy). cbn [bind].
  set (q := fold_right _ _ _).
  assert (Eq := frac_val _ F). fold q in Eq.
  assert (0 <= q < 1)%Q.
  { rewrite Eq. pose proof (hval_bound 10 _ ltac:(lia) (alld_dok _ F)) as K. rewrite <- svalue_hval, map_length in K.
    set (v := svalue 0 (f :: fr)) in *. set (p := 10 ^ Z.of_nat _) in *.
    assert (0 < inject_Z p)%Q. { change 0%Q with (inject_Z 0). rewrite <- Zlt_Qlt. lia. }
    split.
    - apply Qle_shift_div_l; auto. rewrite Qmult_0_l. change 0%Q with (inject_Z 0). rewrite <- Zle_Qle. lia.
    - apply Qlt_shift_div_r; auto. rewrite Qmult_1_l. rewrite <- Zlt_Qlt. lia. }
  pose proof (hms_spec q H) as K. destruct (hms q) as [[h m] s] eqn:Eh.
  eexists. split. reflexivity. cbv beta iota. rewrite <- Eq. exact K.
Qed.

Lemma malformed_accepted : exists d p,
  ~ numbered d /\ ~ provisional d /\ ~ survey d /\ pack_mpc d = Ok p /\ unpack_mpc p <> Ok d.
Proof.
  exists (s_ "199x AB"), (s_ "J9xA00B"). repeat split.
  - intros (n & (A & _) & _). apply alld_sdigit in A.
    assert (is_digit "x"%char = true). { unfold alld in A. rewrite Forall_forall in A. apply A. cbn. auto 10. } discriminate.
  - intros (y0 & y1 & y2 & y3 & h & l & cyc & E & F & _). injection E as <- <- <- <- _ _ _.
    assert (sdigit "x"%char). { rewrite Forall_forall in F. apply F. cbn. auto 10. } unfold sdigit in H. cbn in H. lia.
  - intros (n & num & tail & (A & _) & L & E & _).
    destruct num as [|a [|b [|c [|e [|]]]]]; try discriminate. injection E as <- <- <- <- _.
    assert (sdigit "x"%char). { rewrite Forall_forall in A. apply A. cbn. auto 10. } unfold sdigit in H. cbn in H. lia.
  - vm_compute. discriminate.
Qed.

Lemma dispatch_inj d1 d2 p :
  (numbered d1 \/ provisional d1 \/ survey d1) -> (numbered d2 \/ provisional d2 \/ survey d2) ->
  pack_mpc d1 = Ok p -> pack_mpc d2 = Ok p -> d1 = d2.
Proof.
  assert (K : forall d, (numbered d \/ provisional d \/ survey d) -> bind (pack_mpc d) unpack_mpc = Ok d).
  { intros d [H|[H|H]]. now apply dispatch_numbered. now apply dispatch_provisional. now apply dispatch_survey. }
  intros H1 H2 P1 P2. apply K in H1, H2. rewrite P1 in H1. rewrite P2 in H2. cbn in *. congruence.
Qed.
