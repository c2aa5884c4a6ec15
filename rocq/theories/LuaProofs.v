(* Lemmas about the text of assets. *)
From Coq Require Import Ascii String QArith ZArith List Bool Lia.
From Verif Require Import Base MpcModel ObsModel AdesModel LuaModel LuaSpec.
Import ListNotations.
Open Scope string_scope.
Open Scope list_scope.
Open Scope nat_scope.

(* induction over nested values *)
Section Induction.
Variable P : lval -> Prop.
Hypothesis base : forall v, (forall fs, v <> LDict fs) -> P v.
Hypothesis step : forall fs, Forall (fun kv => P (snd kv)) fs -> P (LDict fs).
Fixpoint lval_nested (v : lval) : P v :=
  match v with
  | LDict fs => step fs ((fix go (l : list (str * lval)) : Forall (fun kv => P (snd kv)) l :=
      match l with [] => Forall_nil _ | (k, x) :: r => Forall_cons (k, x) (lval_nested x) (go r) end) fs)
  | LNone => base LNone ltac:(discriminate) | LBool b => base (LBool b) ltac:(discriminate) | LEnum x => base (LEnum x) ltac:(discriminate)
  | LTuple l => base (LTuple l) ltac:(discriminate) | LList l => base (LList l) ltac:(discriminate) | LStr s => base (LStr s) ltac:(discriminate)
  | LNum t => base (LNum t) ltac:(discriminate) | LRes p => base (LRes p) ltac:(discriminate)
  end.
End Induction.

(* the part of [show] for the fields *)
Fixpoint show_fields (indent : nat) (fs : list (str * lval)) : str :=
  match fs with
  | [] => []
  | (k, v) :: r =>
      match v with
      | LNone => show_fields indent r
      | _ => repeat " "%char indent ++ key_text k ++ s_ " = " ++ show (indent + 4) v ++ ","%char :: NL :: show_fields indent r
      end
  end.
Lemma show_dict : forall indent fs, show indent (LDict fs) = "{"%char :: NL :: show_fields indent fs ++ repeat " "%char (indent - 4) ++ ["}"%char].
Proof.
  intros indent fs. cbn [show]. f_equal. f_equal. f_equal. induction fs as [|[k v] r IH]; auto. cbn [show_fields]. destruct v; rewrite IH; reflexivity.
Qed.

(* ---- lexing ---- *)
Lemma emit_emit : forall a b r, emit a (emit b r) = emit (a ++ b) r.
Proof. intros a b [x|]; cbn; auto. rewrite app_assoc. reflexivity. Qed.
Lemma lex_spaces : forall n s, lex (repeat " "%char n ++ s) Between = lex s Between.
Proof. induction n as [|n IH]; intros s; auto. cbn [repeat app lex]. cbn. rewrite IH. destruct (lex s Between); reflexivity. Qed.
Lemma lex_space : forall c s, is_space c = true -> lex (c :: s) Between = lex s Between.
Proof. intros c s H. cbn [lex]. rewrite H. destruct (lex s Between); reflexivity. Qed.
Lemma lex_punct : forall c t s, punct c = Some t -> is_space c = false -> lex (c :: s) Between = emit [t] (lex s Between).
Proof. intros c t s H I. cbn [lex]. rewrite H, I. reflexivity. Qed.
Lemma lex_in_word : forall w s a, Forall word_char w -> lex (w ++ s) (InWord a) = lex s (InWord (rev w ++ a)).
Proof.
  induction w as [|c w IH]; intros s a H; auto. inversion H as [|? ? (A & B & C) D]; subst. cbn [app lex]. rewrite A, B.
  destruct (Ascii.eqb c quote) eqn:E; [apply Ascii.eqb_eq in E; contradiction|]. rewrite IH by auto. cbn [rev]. rewrite <- app_assoc. reflexivity.
Qed.
(* a character that ends a word *)
Definition stops (c : ascii) : Prop := is_space c = true \/ punct c <> None.
Lemma lex_word_end : forall c s w, stops c -> lex (c :: s) (InWord w) = emit [TWord (rev w)] (lex (c :: s) Between).
Proof.
  intros c s w H. cbn [lex]. destruct (is_space c) eqn:E.
  - rewrite emit_emit. reflexivity.
  - destruct H as [H|H]; [congruence|]. destruct (punct c); [|congruence]. rewrite emit_emit. reflexivity.
Qed.
Lemma lex_word : forall w c s, word w -> stops c -> lex (w ++ c :: s) Between = emit [TWord w] (lex (c :: s) Between).
Proof.
  intros w c s [H N] S. destruct w as [|x w]; [congruence|]. inversion H as [|? ? (A & B & C) D]; subst.
  change ((x :: w) ++ c :: s) with (x :: (w ++ c :: s)). cbn [lex]. rewrite A, B. destruct (Ascii.eqb x quote) eqn:E; [apply Ascii.eqb_eq in E; contradiction|].
  rewrite lex_in_word by auto. rewrite lex_word_end by auto. rewrite rev_app_distr, rev_involutive. reflexivity.
Qed.
Lemma lex_in_text : forall t s a, plain t -> lex (t ++ quote :: s) (InText a) = emit [TText (rev a ++ t)] (lex s Between).
Proof.
  induction t as [|c t IH]; intros s a H.
  - cbn [app lex]. change (Ascii.eqb quote quote) with true. cbn iota. rewrite app_nil_r. reflexivity.
  - inversion H as [|? ? (A & B & C) D]; subst. cbn [app lex]. destruct (Ascii.eqb c quote) eqn:E; [apply Ascii.eqb_eq in E; contradiction|].
    destruct (Ascii.eqb c backslash) eqn:E2; [apply Ascii.eqb_eq in E2; contradiction|]. destruct (Ascii.eqb c NL) eqn:E3; [apply Ascii.eqb_eq in E3; contradiction|].
    rewrite IH by auto. cbn [rev]. rewrite <- app_assoc. reflexivity.
Qed.
Lemma lex_text : forall t s, plain t -> lex (quoted t ++ s) Between = emit [TText t] (lex s Between).
Proof.
  intros t s H. unfold quoted. cbn [app]. rewrite <- app_assoc. cbn [app]. cbn [lex]. cbn. change """"%char with quote.
  rewrite lex_in_text by auto. destruct (lex s Between); reflexivity.
Qed.

(* ---- what a value says ---- *)
Fixpoint tuple_toks (l : list str) : list tok := match l with [] => [] | [x] => [TWord x] | x :: r => TWord x :: TComma :: tuple_toks r end.
Fixpoint toks (v : lval) : list tok :=
  match v with
  | LNone => [TWord (s_ "None")]
  | LBool b => [TWord (if b then s_ "true" else s_ "false")]
  | LEnum v => [TText v]
  | LTuple l => TOpen :: tuple_toks l ++ [TClose]
  | LList l => [TOpen; TText (comma l); TClose]
  | LStr s => [TText s]
  | LNum t => [TWord t]
  | LRes p => [TWord (s_ "asset.resource"); TLeft; TText p; TRight]
  | LDict fs => TOpen ::
      (fix go (fs : list (str * lval)) : list tok :=
         match fs with [] => [] | (k, v) :: r => match v with LNone => go r | _ => TWord (key_text k) :: TEq :: toks v ++ TComma :: go r end end) fs ++ [TClose]
  end.
Fixpoint field_toks (fs : list (str * lval)) : list tok :=
  match fs with [] => [] | (k, v) :: r => match v with LNone => field_toks r | _ => TWord (key_text k) :: TEq :: toks v ++ TComma :: field_toks r end end.
Lemma toks_dict : forall fs, toks (LDict fs) = TOpen :: field_toks fs ++ [TClose].
Proof. reflexivity. Qed.

(* values that can be written: texts without escapes, numbers and keys that are words *)
Inductive writable : lval -> Prop :=
| w_bool : forall b, writable (LBool b)
| w_enum : forall v, plain v -> writable (LEnum v)
| w_tuple : forall l, Forall word l -> writable (LTuple l)
| w_list : forall l, Forall plain l -> writable (LList l)
| w_str : forall s, plain s -> writable (LStr s)
| w_num : forall t, word t -> writable (LNum t)
| w_res : forall p, plain p -> writable (LRes p)
| w_dict : forall fs, Forall (fun kv => snd kv = LNone \/ word (key_text (fst kv)) /\ writable (snd kv)) fs -> writable (LDict fs).

Lemma word_lit : forall s, forallb (fun c => negb (is_space c) && match punct c with None => true | _ => false end && negb (Ascii.eqb c quote)) s = true -> s <> [] -> word s.
Proof.
  intros s H N. split; auto. apply Forall_forall. intros c I. rewrite forallb_forall in H. specialize (H c I). apply andb_true_iff in H. destruct H as [H A]. apply andb_true_iff in H. destruct H as [H B].
  split; [destruct (is_space c); [discriminate|auto]|]. split; [destruct (punct c); [discriminate|auto]|]. intros ->. discriminate.
Qed.
Lemma plain_comma : forall l, Forall plain l -> plain (comma l).
Proof.
  induction 1 as [|x l H Hl IH]; [constructor|]. destruct l as [|y l]; [exact H|]. cbn [comma]. apply Forall_app. split; auto.
  apply Forall_app. split; [repeat constructor; discriminate|exact IH].
Qed.
Lemma stops_comma : stops ","%char. Proof. right. discriminate. Qed.
Lemma stops_close : stops "}"%char. Proof. right. discriminate. Qed.
Lemma lex_tuple : forall l s, Forall word l -> lex (comma l ++ "}"%char :: s) Between = emit (tuple_toks l) (lex ("}"%char :: s) Between).
Proof.
  induction 1 as [|x l H Hl IH].
  - cbn [comma app tuple_toks]. destruct (lex _ _); reflexivity.
  - destruct l as [|y l]; [apply lex_word; auto using stops_close|]. 
    change (comma (x :: y :: l)) with (x ++ s_ ", " ++ comma (y :: l)). change (tuple_toks (x :: y :: l)) with (TWord x :: TComma :: tuple_toks (y :: l)).
    rewrite <- !app_assoc. change (s_ ", " ++ ?z) with (","%char :: " "%char :: z). rewrite lex_word by (auto using stops_comma). rewrite (lex_punct ","%char TComma) by reflexivity.
    rewrite lex_space by reflexivity. rewrite IH. rewrite !emit_emit. reflexivity.
Qed.
Lemma lex_show : forall v, writable v -> forall indent c s, stops c -> lex (show indent v ++ c :: s) Between = emit (toks v) (lex (c :: s) Between).
Proof.
  intros v. induction v as [v B|fs IH] using lval_nested; intros W indent c s S.
  - destruct W as [b|x Hx|l Hl|l Hl|x Hx|t Ht|p Hp|fs Hfs].
    + cbn [show toks]. destruct b; (apply lex_word; [apply word_lit; [reflexivity|discriminate]|auto]).
    + apply lex_text. auto.
    + cbn [show toks]. unfold braces. cbn [app]. rewrite <- app_assoc. cbn [app]. rewrite (lex_punct "{"%char TOpen) by reflexivity. rewrite lex_tuple by auto.
      rewrite (lex_punct "}"%char TClose) by reflexivity. rewrite !emit_emit. reflexivity.
    + cbn [show toks]. unfold braces. cbn [app]. rewrite <- app_assoc. cbn [app]. rewrite (lex_punct "{"%char TOpen) by reflexivity. rewrite lex_text by (apply plain_comma; auto).
      rewrite (lex_punct "}"%char TClose) by reflexivity. rewrite !emit_emit. reflexivity.
    + apply lex_text. auto.
    + apply lex_word; auto.
    + cbn [show toks]. rewrite <- !app_assoc. change (s_ "asset.resource(" ++ ?z) with (s_ "asset.resource" ++ "("%char :: z). change (s_ ")" ++ ?z) with (")"%char :: z).
      rewrite lex_word; [|apply word_lit; [reflexivity|discriminate]|right; discriminate]. rewrite (lex_punct "("%char TLeft) by reflexivity. rewrite lex_text by auto.
      rewrite (lex_punct ")"%char TRight) by reflexivity. rewrite !emit_emit. reflexivity.
    + destruct (B fs eq_refl).
  - inversion W as [| | | | | | |fs' H]; subst. rewrite show_dict, toks_dict. cbn [app]. rewrite (lex_punct "{"%char TOpen) by reflexivity. rewrite lex_space by reflexivity.
    rewrite <- app_assoc.
    assert (G : forall z, lex (show_fields indent fs ++ z) Between = emit (field_toks fs) (lex z Between)).
    { intros z. clear S W. revert H. induction IH as [|[k v] r Hv Hr IHr]; intros H.
      - cbn. destruct (lex z Between); reflexivity.
      - inversion H as [|? ? H1 H2]; subst. specialize (IHr H2). cbn [snd fst] in *.
        assert (N : v = LNone \/ v <> LNone) by (destruct v; auto; right; discriminate). destruct N as [->|N].
        + cbn [show_fields field_toks]. exact IHr.
        + destruct H1 as [H1|[H1 H3]]; [contradiction|].
          assert (E1 : show_fields indent ((k, v) :: r) = repeat " "%char indent ++ key_text k ++ s_ " = " ++ show (indent + 4) v ++ ","%char :: NL :: show_fields indent r)
            by (destruct v; try reflexivity; contradiction).
          assert (E2 : field_toks ((k, v) :: r) = TWord (key_text k) :: TEq :: toks v ++ TComma :: field_toks r) by (destruct v; try reflexivity; contradiction).
          rewrite E1, E2. rewrite <- !app_assoc. rewrite lex_spaces. change (s_ " = " ++ ?z) with (" "%char :: "="%char :: " "%char :: z).
          rewrite lex_word by (auto; left; reflexivity). rewrite lex_space by reflexivity. rewrite (lex_punct "="%char TEq) by reflexivity. rewrite lex_space by reflexivity.
          rewrite <- app_comm_cons. rewrite Hv by (auto using stops_comma). rewrite (lex_punct ","%char TComma) by reflexivity. cbn [app]. rewrite lex_space by reflexivity.
          rewrite IHr. rewrite !emit_emit. cbn [app]. rewrite <- app_assoc. reflexivity. }
    rewrite G. rewrite <- app_assoc, lex_spaces. cbn [app]. rewrite (lex_punct "}"%char TClose) by reflexivity. rewrite !emit_emit. reflexivity.
Qed.

(* ---- parsing ---- *)
Fixpoint view (v : lval) : tree :=
  match v with
  | LNone => Atom (s_ "None")
  | LBool b => Atom (if b then s_ "true" else s_ "false")
  | LEnum v => Text v
  | LTuple l => Table (map (fun x => (None, Atom x)) l)
  | LList l => Table [(None, Text (comma l))]
  | LStr s => Text s
  | LNum t => Atom t
  | LRes p => Call (s_ "asset.resource") p
  | LDict fs => Table ((fix go (fs : list (str * lval)) : list (option str * tree) :=
      match fs with [] => [] | (k, v) :: r => match v with LNone => go r | _ => (Some (key_text k), view v) :: go r end end) fs)
  end.
Fixpoint view_fields (fs : list (str * lval)) : list (option str * tree) :=
  match fs with [] => [] | (k, v) :: r => match v with LNone => view_fields r | _ => (Some (key_text k), view v) :: view_fields r end end.
Lemma view_dict : forall fs, view (LDict fs) = Table (view_fields fs).
Proof. reflexivity. Qed.

Definition not_left (ts : list tok) : Prop := forall r, ts <> TLeft :: r.
Lemma parse_tuple : forall l rest n, S (S (List.length l)) <= n -> pitems n (tuple_toks l ++ TClose :: rest) = Some (map (fun x => (None, Atom x)) l, rest).
Proof.
  induction l as [|x l IH]; intros rest n H; [destruct n; [lia|reflexivity]|]. destruct n as [|[|n]]; [lia|lia|]. destruct l as [|y l].
  - reflexivity.
  - change (tuple_toks (x :: y :: l)) with (TWord x :: TComma :: tuple_toks (y :: l)). cbn [app].
    assert (E : pitems (S n) (tuple_toks (y :: l) ++ TClose :: rest) = Some (map (fun x => (None, Atom x)) (y :: l), rest)) by (apply IH; cbn [List.length] in *; lia).
    remember (tuple_toks (y :: l) ++ TClose :: rest) as ts. cbn [pitems pvalue] in E |- *. rewrite E. reflexivity.
Qed.
Definition enough (v : lval) : Prop := exists n, forall m rest, n <= m -> not_left rest -> pvalue m (toks v ++ rest) = Some (view v, rest).
Lemma pvalue_atom : forall m w rest, not_left rest -> pvalue (S m) (TWord w :: rest) = Some (Atom w, rest).
Proof. intros m w [|[] rest] H; try reflexivity. destruct (H rest eq_refl). Qed.
Lemma parse_show : forall v, writable v -> enough v.
Proof.
  intros v. induction v as [v B|fs IH] using lval_nested; intros W.
  - destruct W as [b|x Hx|l Hl|l Hl|x Hx|t Ht|p Hp|fs Hfs].
    + exists 1. intros [|m] rest H N; [lia|]. apply pvalue_atom. auto.
    + exists 1. intros [|m] rest H N; [lia|]. reflexivity.
    + exists (S (S (S (List.length l)))). intros [|m] rest H N; [lia|]. cbn [toks app]. rewrite <- app_assoc. cbn [app pvalue]. rewrite parse_tuple by lia. reflexivity.
    + exists 3. intros [|[|[|m]]] rest H N; try lia. reflexivity.
    + exists 1. intros [|m] rest H N; [lia|]. reflexivity.
    + exists 1. intros [|m] rest H N; [lia|]. apply pvalue_atom. auto.
    + exists 1. intros [|m] rest H N; [lia|]. reflexivity.
    + destruct (B fs eq_refl).
  - inversion W as [| | | | | | |fs' H]; subst. clear W.
    assert (G : exists n, forall m rest, n <= m -> pitems m (field_toks fs ++ TClose :: rest) = Some (view_fields fs, rest)).
    { induction IH as [|[k v] r Hv Hr IHr].
      - exists 1. intros [|m] rest Hm; [lia|]. reflexivity.
      - inversion H as [|? ? H1 H2]; subst. destruct (IHr H2) as [n1 E1]. cbn [snd fst] in *.
        assert (N : v = LNone \/ v <> LNone) by (destruct v; auto; right; discriminate). destruct N as [->|N].
        + exists n1. exact E1.
        + destruct H1 as [H1|[H1 H3]]; [contradiction|]. destruct (Hv H3) as [n2 E2].
          exists (S (n1 + n2)). intros [|m] rest Hm; [lia|].
          assert (X2 : field_toks ((k, v) :: r) = TWord (key_text k) :: TEq :: toks v ++ TComma :: field_toks r) by (destruct v; try reflexivity; contradiction).
          assert (X3 : view_fields ((k, v) :: r) = (Some (key_text k), view v) :: view_fields r) by (destruct v; try reflexivity; contradiction).
          rewrite X2, X3. cbn [app]. rewrite <- app_assoc. cbn [app pitems]. rewrite E2; [|lia|intros q; discriminate]. rewrite E1 by lia. reflexivity. }
    destruct G as [n E]. exists (S n). intros [|m] rest Hm N; [lia|]. rewrite toks_dict, view_dict. cbn [app]. rewrite <- app_assoc. cbn [app pvalue]. rewrite E by lia. reflexivity.
Qed.
Lemma show_reads : forall v indent c s, writable v -> stops c -> lex s Between = Some [] -> is_space c = true -> reads_as (show indent v ++ c :: s) (view v).
Proof.
  intros v indent c s W S E I. exists (toks v). split.
  - rewrite lex_show by auto. rewrite lex_space by auto. rewrite E. cbn. rewrite app_nil_r. reflexivity.
  - destruct (parse_show v W) as [n H]. exists n. intros m Hm. rewrite <- (app_nil_r (toks v)). apply H; auto. intros r. discriminate.
Qed.
