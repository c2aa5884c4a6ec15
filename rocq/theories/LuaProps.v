(* OpenSpace assets. *)
From Coq Require Import Ascii String QArith Qround ZArith List Bool Lia Lqa.
From Verif Require Import Base MpcModel ObsModel AdesModel LuaModel LuaSpec LuaProofs LuaProofs2.
Import ListNotations.
Open Scope string_scope.
Open Scope list_scope.
Open Scope nat_scope.

(* what a value is meant to say in Lua: a list is the table of its members; a field that is None is left out *)
Fixpoint meaning (v : lval) : tree :=
  match v with
  | LNone => Atom (s_ "nil")
  | LBool b => Atom (if b then s_ "true" else s_ "false")
  | LEnum v => Text v
  | LTuple l => Table (map (fun x => (None, Atom x)) l)
  | LList l => Table (map (fun x => (None, Text x)) l)
  | LStr s => Text s
  | LNum t => Atom t
  | LRes p => Call (s_ "asset.resource") p
  | LDict fs => Table ((fix go (fs : list (str * lval)) : list (option str * tree) :=
      match fs with [] => [] | (k, v) :: r => match v with LNone => go r | _ => (Some (key_text k), meaning v) :: go r end end) fs)
  end.
(* values without characters that need an escape, whose lists have one member *)
Inductive simple : lval -> Prop :=
| s_bool : forall b, simple (LBool b)
| s_enum : forall v, plain v -> simple (LEnum v)
| s_tuple : forall l, Forall word l -> simple (LTuple l)
| s_list : forall x, plain x -> simple (LList [x])
| s_str : forall s, plain s -> simple (LStr s)
| s_num : forall t, word t -> simple (LNum t)
| s_res : forall p, plain p -> simple (LRes p)
| s_dict : forall fs, Forall (fun kv => snake (fst kv) /\ (snd kv = LNone \/ simple (snd kv))) fs -> simple (LDict fs).

Lemma simple_spec : forall v, simple v -> writable v /\ view v = meaning v.
Proof.
  intros v. induction v as [v B|fs IH] using lval_nested; intros S.
  - destruct S as [b|x X|l L|x X|x X|t T|p P|fs F]; try (split; [constructor; auto|reflexivity]). destruct (B fs). reflexivity.
  - inversion S as [ | | | | | | | fs' F]; subst. assert (G : Forall (fun kv => snd kv = LNone \/ word (key_text (fst kv)) /\ writable (snd kv)) fs /\ view (LDict fs) = meaning (LDict fs)).
    { clear S. induction fs as [|[k v] fs IHf]; [split; [constructor|reflexivity]|].
      inversion F as [|? ? [K V] F']; subst. inversion IH as [|? ? I1 I2]; subst. destruct (IHf I2 F') as [G1 G2]. cbn [fst snd] in *. destruct V as [->|V].
      - split; [constructor; auto|exact G2].
      - destruct (I1 V) as [W E]. split; [constructor; auto; right; cbn [fst snd]; split; [apply key_word; auto|auto]|].
        pose proof G2 as G3. rewrite view_dict in G3 |- *. cbn [view_fields]. cbn [meaning] in *. injection G3 as G3. rewrite G3, E. destruct v; try reflexivity; inversion V. }
    destruct G. split; [constructor; auto|auto].
Qed.

(* C242: the text of an asset says the asset *)
Theorem C242_reads_partial : forall v indent, simple v -> reads_as (show indent v ++ [NL]) (meaning v).
Proof. intros v indent S. destruct (simple_spec v S) as [W E]. rewrite <- E. apply show_reads; auto. left. reflexivity. Qed.
Print Assumptions C242_reads_partial.
Theorem C242_text_refuted : exists s : str, forall t, ~ reads_as (show 4 (LDict [(s_ "name", LStr s)]) ++ [NL]) t.
Proof.
  exists (s_ "1"" wide"). intros t.
  intros (ts & L & _). vm_compute in L. discriminate.
Qed.
Print Assumptions C242_text_refuted.
Theorem C242_list_refuted : exists l, forall t, reads_as (show 4 (LDict [(s_ "tag", LList l)]) ++ [NL]) t -> t <> meaning (LDict [(s_ "tag", LList l)]).
Proof.
  exists [s_ "a"; s_ "b"]. intros t H E.
  assert (W : writable (LDict [(s_ "tag", LList [s_ "a"; s_ "b"])])).
  { constructor. constructor; [|constructor]. right. split; [apply word_lit; [reflexivity|discriminate]|]. constructor. repeat constructor; discriminate. }
  assert (R := show_reads _ 4 NL [] W ltac:(left; reflexivity) eq_refl eq_refl). pose proof (reads_one _ _ _ H R) as X. subst. vm_compute in X. discriminate.
Qed.
Print Assumptions C242_list_refuted.
Theorem C242_empty_list_refuted : forall t, reads_as (show 4 (LList []) ++ [NL]) t -> t = Table [(None, Text [])] /\ t <> meaning (LList []).
Proof.
  intros t H. assert (W : writable (LList [])) by (constructor; constructor).
  assert (R := show_reads _ 4 NL [] W ltac:(left; reflexivity) eq_refl eq_refl). pose proof (reads_one _ _ _ H R) as ->. split; [reflexivity|discriminate].
Qed.
Print Assumptions C242_empty_list_refuted.
(* an asset with a table in a table *)
Definition eros : lval := asset (s_ "Eros") (gui (s_ "433 Eros") (s_ "/ADAM")) (LDict [(s_ "type", LStr (s_ "RenderableTrailOrbit")); (s_ "opacity", LNone);
  (s_ "color", LTuple [s_ "0.5"; s_ "1.0"; s_ "0.5"]); (s_ "tag", LList [s_ "neo"])]) LNone.
Example C242_ex : simple eros.
Proof.
  assert (S1 : snake (s_ "identifier")) by (apply (snake_lit [s_ "identifier"]); [discriminate|reflexivity]).
  assert (S2 : snake (s_ "parent")) by (apply (snake_lit [s_ "parent"]); [discriminate|reflexivity]).
  assert (S3 : snake (s_ "gui")) by (apply (snake_lit [s_ "gui"]); [discriminate|reflexivity]).
  assert (S4 : snake (s_ "renderable")) by (apply (snake_lit [s_ "renderable"]); [discriminate|reflexivity]).
  assert (S5 : snake (s_ "transform")) by (apply (snake_lit [s_ "transform"]); [discriminate|reflexivity]).
  assert (S6 : snake (s_ "name")) by (apply (snake_lit [s_ "name"]); [discriminate|reflexivity]).
  assert (S7 : snake (s_ "path")) by (apply (snake_lit [s_ "path"]); [discriminate|reflexivity]).
  assert (S8 : snake (s_ "type")) by (apply (snake_lit [s_ "type"]); [discriminate|reflexivity]).
  assert (S9 : snake (s_ "opacity")) by (apply (snake_lit [s_ "opacity"]); [discriminate|reflexivity]).
  assert (S10 : snake (s_ "color")) by (apply (snake_lit [s_ "color"]); [discriminate|reflexivity]).
  assert (S11 : snake (s_ "tag")) by (apply (snake_lit [s_ "tag"]); [discriminate|reflexivity]).
  assert (T : forall s, plain s -> simple (LStr s)) by (intros; constructor; auto).
  unfold eros, asset, gui. apply s_dict.
  repeat match goal with
  | |- Forall _ (_ :: _) => constructor
  | |- Forall _ [] => constructor
  | |- _ /\ _ => split; cbn [fst snd]; [assumption|]
  | |- LNone = LNone \/ _ => left; reflexivity
  | |- _ \/ simple _ => right
  | |- simple (LDict _) => apply s_dict
  | |- simple (LStr _) => apply s_str; repeat constructor; discriminate
  | |- simple (LList _) => apply s_list; repeat constructor; discriminate
  | |- simple (LTuple _) => apply s_tuple
  | |- word _ => apply word_lit; [reflexivity|discriminate]
  end.
Qed.

(* C243: the names of the fields *)
Theorem C243_distinct : forall a b, snake a -> snake b -> a <> s_ "g_u_i" -> b <> s_ "g_u_i" -> key_text a = key_text b -> a = b.
Proof. exact key_inj. Qed.
Print Assumptions C243_distinct.
Theorem C243_names : Forall (fun p => key_text (s_ (fst p)) = s_ (snd p))
  [("identifier", "Identifier"); ("parent", "Parent"); ("gui", "GUI"); ("renderable", "Renderable"); ("transform", "Transform"); ("name", "Name"); ("path", "Path");
   ("type", "Type"); ("dim_in_atmosphere", "DimInAtmosphere"); ("enabled", "Enabled"); ("opacity", "Opacity"); ("render_bin_mode", "RenderBinMode"); ("tag", "Tag");
   ("color", "Color"); ("format", "Format"); ("segment_quality", "SegmentQuality"); ("contiguous_mode", "ContiguousMode"); ("enable_max_size", "EnableMaxSize");
   ("enable_outline", "EnableOutline"); ("max_size", "MaxSize"); ("outline_color", "OutlineColor"); ("outline_width", "OutlineWidth");
   ("point_size_exponent", "PointSizeExponent"); ("rendering", "Rendering"); ("render_size", "RenderSize"); ("start_render_idx", "StartRenderIdx");
   ("trail_fade", "TrailFade"); ("trail_width", "TrailWidth"); ("period", "Period"); ("resolution", "Resolution"); ("translation", "Translation");
   ("enable_fade", "EnableFade"); ("line_fade_amount", "LineFadeAmount"); ("line_length", "LineLength"); ("line_width", "LineWidth"); ("point_size", "PointSize");
   ("argument_of_periapsis", "ArgumentOfPeriapsis"); ("ascending_node", "AscendingNode"); ("eccentricity", "Eccentricity"); ("epoch", "Epoch");
   ("inclination", "Inclination"); ("mean_anomaly", "MeanAnomaly"); ("semi_major_axis", "SemiMajorAxis"); ("observer", "Observer"); ("target", "Target");
   ("fixed_date", "FixedDate"); ("frame", "Frame")].
Proof. repeat constructor. Qed.
Print Assumptions C243_names.
Example C243_ex : snake (s_ "semi_major_axis") /\ snake (s_ "dim_in_atmosphere").
Proof. split; [apply (snake_lit [s_ "semi"; s_ "major"; s_ "axis"])|apply (snake_lit [s_ "dim"; s_ "in"; s_ "atmosphere"])]; try discriminate; reflexivity. Qed.

Section Trail.
Variable number : Q -> str.

(* C244: the nodes of a file *)
Theorem C244_nodes : forall t c os text, trail_file number t c os = OOk text -> exists ns rest,
  text = flat_map (fun a => s_ "local " ++ fst a ++ s_ " = " ++ show 4 (snd a) ++ [NL; NL]) ns ++ create_initialization (map fst ns) ++ rest /\
  NoDup (map fst ns) /\ List.length ns = (if to_head t then 2 else 1) * List.length os /\
  split_on NL (create_initialization (map fst ns)) =
    (s_ "asset.onInitialize(function ()" :: map (fun a => s_ "  openspace.addSceneGraphNode(" ++ a ++ s_ ");") (map fst ns) ++ [s_ "end)"]) ++
    (s_ "asset.onDeinitialize(function ()" :: map (fun a => s_ "  openspace.removeSceneGraphNode(" ++ a ++ s_ ");") (map fst ns) ++ [s_ "end)"]) /\
  map (fun a => field "Identifier" (Some (view (snd a)))) ns =
    flat_map (fun o => Some (Text (safe (object_of o))) :: (if to_head t then [Some (Text (safe (object_of o) ++ s_ "_Head"))] else [])) os.
Proof.
  intros t c os text H. unfold trail_file in H. destruct (trail_checks t c) as [rend|] eqn:E; [|discriminate]. cbn [olift obind] in H.
  destruct (nodes number t rend false 0 os) as [ns|] eqn:N; [|discriminate]. cbn [obind] in H. injection H as <-.
  destruct (nodes_shape number t rend os _ _ _ N) as (A & B & trs & C & D).
  exists ns, (if str_eqb (to_type t) (s_ "Spice") then kernel_block (default [] (to_kernel t)) else []). split; [reflexivity|].
  split; [match goal with |- NoDup ?m => replace m with (map variable_name (seq 0 (List.length ns))) by (symmetry; exact A) end; apply names_distinct|]. split; [exact B|]. split.
  - apply (init_lines (map fst ns)). assert (F : forall l, Forall (fun a => ~ In NL a) (map variable_name l)) by (intros l; apply Forall_map; apply Forall_forall; intros n _; apply variable_newline).
    match goal with |- Forall _ ?m => replace m with (map variable_name (seq 0 (List.length ns))) by (symmetry; exact A) end. apply F.
  - transitivity (map (fun a => field "Identifier" (Some (view a))) (map snd ns)); [symmetry; apply map_map|]. etransitivity; [apply (f_equal (map (fun a => field "Identifier" (Some (view a)))) D)|]. clear - C. induction C as [|o tr os trs (p & P) C IH]; [reflexivity|].
    cbn [combine flat_map fst snd]. rewrite map_app, IH. f_equal. destruct (to_head t); reflexivity.
Qed.
(* the identifiers of the nodes are distinct *)
Theorem C244_identifiers_partial : forall head os, NoDup (map (fun o => safe (object_of o)) os) ->
  (head = true -> forall o o', In o os -> In o' os -> safe (object_of o) <> safe (object_of o') ++ s_ "_Head") ->
  NoDup (flat_map (fun o => Some (Text (safe (object_of o))) :: (if head : bool then [Some (Text (safe (object_of o) ++ s_ "_Head"))] else [])) os).
Proof.
  intros head os N H. induction os as [|o os IH]; [constructor|]. cbn [map] in N. inversion N as [|? ? N1 N2]; subst.
  assert (IH' := IH N2 ltac:(intros E x y X Y; apply H; auto; right; auto)). clear IH. cbn [flat_map].
  assert (X : forall o', In o' os -> safe (object_of o') <> safe (object_of o)) by (intros o' I E; apply N1; rewrite <- E; apply (in_map (fun o => safe (object_of o)) os o' I)).
  assert (Y1 : ~ In (Some (Text (safe (object_of o)))) (flat_map (fun o => Some (Text (safe (object_of o))) :: (if head then [Some (Text (safe (object_of o) ++ s_ "_Head"))] else [])) os)).
  { intros I. apply in_flat_map in I. destruct I as (o' & I & J). destruct J as [J|J]; [injection J as J; exact (X o' I J)|]. destruct head; [|destruct J]. destruct J as [J|[]].
    injection J as J. apply (H eq_refl o o'); [left; auto|right; auto|auto]. }
  destruct head; cbn [app].
  - constructor.
    + intros [I|I]; [|exact (Y1 I)]. injection I as I. apply (H eq_refl o o); [left; auto|left; auto|auto].
    + constructor; auto. intros I. apply in_flat_map in I. destruct I as (o' & I & J). destruct J as [J|[J|[]]].
      * injection J as J. apply (H eq_refl o' o); [right; auto|left; auto|auto].
      * injection J as J. apply app_inv_tail in J. exact (X o' I J).
  - constructor; auto.
Qed.

(* C245: options *)
Theorem C245_trail_ignores : forall t c c' os, enum bin_modes (c_bin_mode c) <> Err ValueError -> enum bin_modes (c_bin_mode c') <> Err ValueError ->
  trail_file number t c os = trail_file number t c' os.
Proof.
  intros t c c' os A B. assert (E : trail_checks t c = trail_checks t c'); [|unfold trail_file; rewrite E; reflexivity].
  assert (V : forall m v, (exists x, enum m v = Ok x) \/ enum m v = Err ValueError) by (intros m [v|]; unfold enum; [destruct (existsb _ _)|]; eauto).
  destruct (V bin_modes (c_bin_mode c)) as [[x X]|X]; [|contradiction]. destruct (V bin_modes (c_bin_mode c')) as [[y Y]|Y]; [|contradiction].
  unfold trail_checks. rewrite X, Y. reflexivity.
Qed.
Theorem C245_name_ignored : forall a b b' d e f g h i j k l m n o p c os,
  trail_file number (mkto a b d e f g h i j k l m n o p) c os = trail_file number (mkto a b' d e f g h i j k l m n o p) c os.
Proof.
  intros. unfold trail_file. assert (E : trail_checks (mkto a b d e f g h i j k l m n o p) c = trail_checks (mkto a b' d e f g h i j k l m n o p) c) by reflexivity.
  rewrite E. destruct (trail_checks _ c) as [rend|]; [|reflexivity]. cbn [olift obind].
  assert (G : forall os prev n0, nodes number (mkto a b d e f g h i j k l m n o p) rend prev n0 os = nodes number (mkto a b' d e f g h i j k l m n o p) rend prev n0 os).
  { induction os0 as [|x os0 IH]; intros prev n0; [reflexivity|]. cbn [nodes]. change (translation number (mkto a b d e f g h i j k l m n o p) prev x) with (translation number (mkto a b' d e f g h i j k l m n o p) prev x).
    destruct (translation number (mkto a b' d e f g h i j k l m n o p) prev x); [|reflexivity]. cbn [obind]. cbv zeta. cbn [to_head]. rewrite IH. reflexivity. }
  rewrite G. reflexivity.
Qed.
End Trail.
Print Assumptions C244_nodes.
Print Assumptions C244_identifiers_partial.
Print Assumptions C245_trail_ignores.
Print Assumptions C245_name_ignored.

Definition digits_of (q : Q) : str := str_of (Qnum q) ++ s_ "/" ++ str_of (Zpos (Qden q)).
Definition row (id : string) : orbit := mkorbit (s_ "o1") (Some (s_ id)) (s_ "2025-01-01") (3 # 2) (1 # 10) 5 10 20 30 (Some 700%Q).
Definition defaults : trail_options := mkto true None None (LTuple [s_ "1"; s_ "1"; s_ "1"]) (LNum (s_ "1000")) (s_ "Kepler") LNone LNone LNone LNone LNone None None None None.
Definition no_options : common := mkcommon LNone LNone LNone None LNone.
Example C244_ex : exists text, trail_file digits_of defaults no_options [row "Eros"; row "2020 AB"] = OOk text /\ (1000 < List.length text).
Proof. eexists. split; [vm_compute; reflexivity|apply Nat.ltb_lt; vm_compute; reflexivity]. Qed.
Example C244_ex2 : NoDup (map (fun o => safe (object_of o)) [row "Eros"; row "2020 AB"]).
Proof. repeat constructor; cbn; intuition discriminate. Qed.
(* two objects, one identifier *)
Theorem C244_identifiers_refuted : exists a b ns, object_of a <> object_of b /\ nodes digits_of defaults LNone false 0 [a; b] = OOk ns /\
  ~ NoDup (map (fun x => field "Identifier" (Some (view (snd x)))) ns).
Proof.
  exists (row "2020 AB"), (row "2020_AB"). eexists. split; [discriminate|]. split; [vm_compute; reflexivity|]. intros N. apply NoDup_cons_iff in N. destruct N as [N _]. apply N. right. left. reflexivity.
Qed.
Print Assumptions C244_identifiers_refuted.
Theorem C244_head_refuted : exists a b ns, safe (object_of a) <> safe (object_of b) /\ nodes digits_of defaults LNone false 0 [a; b] = OOk ns /\
  ~ NoDup (map (fun x => field "Identifier" (Some (view (snd x)))) ns).
Proof.
  exists (row "X"), (row "X_Head"). eexists. split; [discriminate|]. split; [vm_compute; reflexivity|]. intros N. apply NoDup_cons_iff in N. destruct N as [_ N]. apply NoDup_cons_iff in N.
  destruct N as [N _]. apply N. left. reflexivity.
Qed.
Print Assumptions C244_head_refuted.

(* C245: an option given to create_renderable_orbital_kepler is a field of its renderable, one that is not given is none *)
Theorem C245_kepler_partial : forall i n p o c a, kepler_asset i n p o c = Ok a ->
  forall name v, In (name, v)
    [("DimInAtmosphere", c_dim c); ("Enabled", c_enabled c); ("Opacity", c_opacity c); ("RenderBinMode", match c_bin_mode c with Some x => LStr x | None => LNone end); ("Tag", c_tag c);
     ("Color", ko_color o); ("SegmentQuality", ko_quality o); ("ContiguousMode", ko_contiguous o); ("EnableMaxSize", ko_enable_max_size o); ("EnableOutline", ko_enable_outline o);
     ("MaxSize", ko_max_size o); ("OutlineColor", ko_outline_color o); ("OutlineWidth", ko_outline_width o); ("PointSizeExponent", ko_exponent o);
     ("Rendering", match ko_rendering o with Some x => LStr x | None => LNone end); ("RenderSize", ko_render_size o); ("StartRenderIdx", ko_start o);
     ("TrailFade", ko_trail_fade o); ("TrailWidth", ko_trail_width o)] ->
  field name (field "Renderable" (Some (view a))) = match v with LNone => None | _ => Some (view v) end.
Proof.
  intros i n p o c a H name v I. unfold kepler_asset in H. destruct (enum kepler_renderings (ko_rendering o)) as [rend|] eqn:R; [|discriminate]. cbn [bind] in H.
  destruct (enum bin_modes (c_bin_mode c)) as [bin|] eqn:B; [|discriminate]. cbn [bind] in H. injection H as <-.
  assert (M : forall m x y, enum m x = Ok y -> match match x with Some z => LStr z | None => LNone end with LNone => None | _ => Some (view match x with Some z => LStr z | None => LNone end) end = match y with LNone => None | _ => Some (view y) end).
  { intros m [x|] y E; unfold enum in E; [destruct (existsb _ _); [|discriminate]|]; injection E as <-; reflexivity. }
  set (fs := [(s_ "type", LStr (s_ "RenderableOrbitalKepler"));
    (s_ "dim_in_atmosphere", c_dim c); (s_ "enabled", c_enabled c); (s_ "opacity", c_opacity c); (s_ "render_bin_mode", bin); (s_ "tag", c_tag c);
    (s_ "color", ko_color o); (s_ "format", LEnum (s_ "SBDB")); (s_ "path", LRes (safe i ++ s_ ".csv")); (s_ "segment_quality", ko_quality o);
    (s_ "contiguous_mode", ko_contiguous o); (s_ "enable_max_size", ko_enable_max_size o); (s_ "enable_outline", ko_enable_outline o);
    (s_ "max_size", ko_max_size o); (s_ "outline_color", ko_outline_color o); (s_ "outline_width", ko_outline_width o);
    (s_ "point_size_exponent", ko_exponent o); (s_ "rendering", rend); (s_ "render_size", ko_render_size o);
    (s_ "start_render_idx", ko_start o); (s_ "trail_fade", ko_trail_fade o); (s_ "trail_width", ko_trail_width o)]).
  assert (F : forall x y z fs, field "Renderable" (Some (view (asset x (gui y z) (LDict fs) LNone))) = Some (view (LDict fs))) by reflexivity.
  unfold kepler_renderable. fold fs. rewrite F, view_dict. cbn [field].
  assert (N : NoDup (map (fun kv => key_text (fst kv)) fs)).
  { apply (NoDup_map_inv string_of_list_ascii). vm_compute map. repeat (constructor; [cbn [In]; intuition discriminate|]). constructor. }
  assert (K : forall k x, In (s_ k, x) fs -> s_ name = key_text (s_ k) -> lookup (s_ name) (view_fields fs) = match x with LNone => None | _ => Some (view x) end).
  { intros k x J ->. apply lookup_field; auto. }
  cbn [In] in I.
  repeat match type of I with
  | _ \/ _ => destruct I as [I|I]
  | False => destruct I
  end; injection I as <- <-; try rewrite (M _ _ _ B); try rewrite (M _ _ _ R);
  match goal with |- lookup (s_ ?nm) _ = match ?x with _ => _ end => 
    first [ solve [apply (K "dim_in_atmosphere"); [|reflexivity]; unfold fs; cbn [In]; tauto]
      | solve [apply (K "enabled"); [|reflexivity]; unfold fs; cbn [In]; tauto]
      | solve [apply (K "opacity"); [|reflexivity]; unfold fs; cbn [In]; tauto]
      | solve [apply (K "render_bin_mode"); [|reflexivity]; unfold fs; cbn [In]; tauto]
      | solve [apply (K "tag"); [|reflexivity]; unfold fs; cbn [In]; tauto]
      | solve [apply (K "color"); [|reflexivity]; unfold fs; cbn [In]; tauto]
      | solve [apply (K "segment_quality"); [|reflexivity]; unfold fs; cbn [In]; tauto]
      | solve [apply (K "contiguous_mode"); [|reflexivity]; unfold fs; cbn [In]; tauto]
      | solve [apply (K "enable_max_size"); [|reflexivity]; unfold fs; cbn [In]; tauto]
      | solve [apply (K "enable_outline"); [|reflexivity]; unfold fs; cbn [In]; tauto]
      | solve [apply (K "max_size"); [|reflexivity]; unfold fs; cbn [In]; tauto]
      | solve [apply (K "outline_color"); [|reflexivity]; unfold fs; cbn [In]; tauto]
      | solve [apply (K "outline_width"); [|reflexivity]; unfold fs; cbn [In]; tauto]
      | solve [apply (K "point_size_exponent"); [|reflexivity]; unfold fs; cbn [In]; tauto]
      | solve [apply (K "rendering"); [|reflexivity]; unfold fs; cbn [In]; tauto]
      | solve [apply (K "render_size"); [|reflexivity]; unfold fs; cbn [In]; tauto]
      | solve [apply (K "start_render_idx"); [|reflexivity]; unfold fs; cbn [In]; tauto]
      | solve [apply (K "trail_fade"); [|reflexivity]; unfold fs; cbn [In]; tauto]
      | solve [apply (K "trail_width"); [|reflexivity]; unfold fs; cbn [In]; tauto] ] end.
Qed.
Print Assumptions C245_kepler_partial.
Definition coloured : kepler_options := mkko (LTuple [s_ "1"; s_ "0"; s_ "0"]) (LNum (s_ "4")) (LBool false) LNone LNone LNone LNone LNone LNone (Some (s_ "PointsTrails")) LNone LNone (LNum (s_ "2")) LNone.
Example C245_ex : exists a, kepler_asset (s_ "my orbits") None None coloured (mkcommon LNone (LBool true) (LNum (s_ "0.5")) (Some (s_ "Opaque")) (LList [s_ "neo"])) = Ok a /\
  field "Tag" (field "Renderable" (Some (view a))) = Some (Table [(None, Text (s_ "neo"))]).
Proof. eexists. split; reflexivity. Qed.
(* an option given to create_renderable_trail_orbit is in the file as if it were not given *)
Theorem C245_trail_refuted : forall number t os dim en op bin tag, In bin [None; Some (s_ "Opaque"); Some (s_ "Overlay"); Some (s_ "Background")] ->
  trail_file number t (mkcommon dim en op bin tag) os = trail_file number t (mkcommon LNone LNone LNone None LNone) os.
Proof. intros number t os dim en op bin tag I. apply C245_trail_ignores; [|discriminate]. cbn [c_bin_mode]. destruct I as [<-|[<-|[<-|[<-|[]]]]]; discriminate. Qed.
Print Assumptions C245_trail_refuted.
Example C245_ex2 : exists text, trail_file digits_of defaults (mkcommon LNone (LBool false) (LNum (s_ "0.5")) None (LList [s_ "neo"])) [row "Eros"] = OOk text.
Proof. eexists. vm_compute. reflexivity. Qed.

(* C246: values that are refused. The documented modes are Opaque, Transparent and Both *)
Theorem C246_mode_refuted : forall number t o dim en op tag os i n p mode, In mode [s_ "Transparent"; s_ "Both"] -> enum trail_renderings (to_rendering t) <> Err ValueError ->
  enum kepler_renderings (ko_rendering o) <> Err ValueError ->
  trail_file number t (mkcommon dim en op (Some mode) tag) os = OFail (OErr ValueError) /\ kepler_file i n p o (mkcommon dim en op (Some mode) tag) = Err ValueError.
Proof.
  assert (V : forall m v, (exists x, enum m v = Ok x) \/ enum m v = Err ValueError) by (intros m [v|]; unfold enum; [destruct (existsb _ _)|]; eauto).
  intros number t o dim en op tag os i n p mode M A B.
  destruct (V trail_renderings (to_rendering t)) as [[x X]|X]; [|contradiction]. destruct (V kepler_renderings (ko_rendering o)) as [[y Y]|Y]; [|contradiction].
  unfold trail_file, trail_checks, kepler_file, kepler_asset. rewrite X, Y. cbn [bind c_bin_mode]. destruct M as [<-|[<-|[]]]; split; reflexivity.
Qed.
Print Assumptions C246_mode_refuted.
Theorem C246_accepted_partial : forall number t c os, to_type t = s_ "Kepler" ->
  (exists text, trail_file number t c os = OOk text) <->
  (to_rendering t = None \/ exists r, to_rendering t = Some r /\ In r [s_ "Lines"; s_ "Points"; s_ "Lines+Points"]) /\
  (c_bin_mode c = None \/ exists m, c_bin_mode c = Some m /\ In m [s_ "Background"; s_ "Opaque"; s_ "PreDeferredTransparent"; s_ "Overlay"; s_ "PostDeferredTransparent"; s_ "Sticker"]).
Proof.
  intros number t c os T.
  assert (E : forall m v, (exists x, enum m v = Ok x) <-> (v = None \/ exists r, v = Some r /\ In r m)).
  { intros m [v|]; unfold enum; [|split; eauto]. destruct (existsb (str_eqb v) m) eqn:X.
    - apply existsb_exists in X. destruct X as (w & I & W). apply str_eqb_iff in W. subst. split; eauto.
    - split; [intros [x Hx]; discriminate|]. intros [N|(r & R & I)]; [discriminate|]. injection R as <-. assert (Y : existsb (str_eqb v) m = true) by (apply existsb_exists; exists v; split; auto; apply str_eqb_iff; auto). congruence. }
  assert (N : forall rend os prev k, exists ns, nodes number t rend prev k os = OOk ns).
  { intros rend. induction os0 as [|o os0 IH]; intros prev k; [eexists; reflexivity|]. cbn [nodes]. unfold translation. rewrite T. cbn [str_eqb]. change (str_eqb (s_ "Kepler") (s_ "Kepler")) with true. cbv iota. cbn [obind]. cbv zeta.
    match goal with |- context [nodes number t rend true ?k os0] => destruct (IH true k) as [ns ->] end. eexists. reflexivity. }
  pose proof (E trail_renderings (to_rendering t)) as E1. pose proof (E bin_modes (c_bin_mode c)) as E2. change trail_renderings with [s_ "Lines"; s_ "Points"; s_ "Lines+Points"] in E1 at 2.
  change bin_modes with [s_ "Background"; s_ "Opaque"; s_ "PreDeferredTransparent"; s_ "Overlay"; s_ "PostDeferredTransparent"; s_ "Sticker"] in E2 at 2. rewrite <- E1, <- E2. clear E1 E2 E.
  unfold trail_file, trail_checks. rewrite T. change (str_eqb (s_ "Kepler") (s_ "Spice")) with false. cbv iota.
  destruct (enum trail_renderings (to_rendering t)) as [r|e]; cbn [bind olift obind].
  - destruct (enum bin_modes (c_bin_mode c)) as [b|e]; cbn [bind olift obind].
    + split; [split; eauto|]. intros _. destruct (N r os false 0) as [ns ->]. cbn [obind]. eexists. reflexivity.
    + split; [intros [x Hx]; discriminate|intros [_ [x Hx]]; discriminate].
  - split; [intros [x Hx]; discriminate|intros [[x Hx] _]; discriminate].
Qed.
Print Assumptions C246_accepted_partial.
(* an unknown type of translation is no ValueError but an UnboundLocalError *)
Theorem C246_type_refuted : forall number t c o os, to_type t <> s_ "Kepler" -> to_type t <> s_ "Spice" -> (forall e, trail_checks t c <> Err e) ->
  trail_file number t c (o :: os) = OFail OUnbound.
Proof.
  intros number t c o os K S H. unfold trail_file. destruct (trail_checks t c) as [r|e]; [|destruct (H e); reflexivity]. cbn [olift obind nodes]. unfold translation.
  destruct (str_eqb (to_type t) (s_ "Kepler")) eqn:A; [apply str_eqb_iff in A; contradiction|]. destruct (str_eqb (to_type t) (s_ "Spice")) eqn:B; [apply str_eqb_iff in B; contradiction|]. reflexivity.
Qed.
Print Assumptions C246_type_refuted.
Theorem C246_spice_partial : forall number t c os, to_type t = s_ "Spice" -> to_kernel t = None \/ to_ids t = None -> exists e, trail_file number t c os = OFail (OErr e) /\ e = ValueError.
Proof.
  assert (V : forall m v, (exists x, enum m v = Ok x) \/ enum m v = Err ValueError) by (intros m [v|]; unfold enum; [destruct (existsb _ _)|]; eauto).
  intros number t c os T H. exists ValueError. split; [|reflexivity]. unfold trail_file, trail_checks. rewrite T. change (str_eqb (s_ "Spice") (s_ "Spice")) with true.
  destruct (V trail_renderings (to_rendering t)) as [[x ->]| ->]; [|reflexivity]. cbn [bind]. destruct (V bin_modes (c_bin_mode c)) as [[y ->]| ->]; [|reflexivity]. cbn [bind].
  destruct H as [-> | ->]; [reflexivity|]. destruct (to_kernel t); reflexivity.
Qed.
Print Assumptions C246_spice_partial.
Example C246_ex : to_type (mkto true None None LNone LNone (s_ "kepler") LNone LNone LNone LNone LNone None None None None) <> s_ "Kepler" /\
  trail_checks (mkto true None None LNone LNone (s_ "kepler") LNone LNone LNone LNone LNone None None None None) no_options = Ok LNone.
Proof. split; [discriminate|reflexivity]. Qed.

(* C247: elements and their units *)
Definition says (number : Q -> str) (o : orbit) (tr : option tree) : Prop :=
  field "Type" tr = Some (Text (s_ "KeplerTranslation")) /\ field "SemiMajorAxis" tr = Some (Atom (number (o_a o * (1495978707 # 10))%Q)) /\
  field "Eccentricity" tr = Some (Atom (number (o_e o))) /\ field "Inclination" tr = Some (Atom (number (o_i o))) /\
  field "AscendingNode" tr = Some (Atom (number (o_raan o))) /\ field "ArgumentOfPeriapsis" tr = Some (Atom (number (o_ap o))) /\
  field "MeanAnomaly" tr = Some (Atom (number (o_M o))) /\ field "Epoch" tr = Some (Text (o_epoch o)) /\
  field "Period" tr = Some (Atom (number (match o_P o with Some p => p * 86400 | None => 10000 * 86400 end)%Q)).
Theorem C247_units : forall number t rend os ns o, to_type t = s_ "Kepler" -> nodes number t rend false 0 os = OOk ns -> In o os ->
  exists x, In x ns /\ let a := Some (view (snd x)) in field "Identifier" a = Some (Text (safe (object_of o))) /\
    says number o (field "Translation" (field "Renderable" a)) /\
    field "Period" (field "Renderable" a) = Some (Atom (number (match to_period t, o_P o with Some p, _ => p | None, Some p => p | None, None => 10000 end)%Q)) /\
    (to_head t = true -> exists y, In y ns /\ field "Identifier" (Some (view (snd y))) = Some (Text (safe (object_of o) ++ s_ "_Head")) /\
       says number o (field "Translation" (field "Transform" (Some (view (snd y)))))).
Proof.
  intros number t rend os ns o T H. assert (Hp : exists p k, nodes number t rend p k os = OOk ns) by eauto. clear H. destruct Hp as (prev & k & H). revert prev k H.
  revert ns. induction os as [|o' os IH]; intros ns prev k H I; [destruct I|].
  cbn [nodes] in H. unfold translation in H. rewrite T in H. change (str_eqb (s_ "Kepler") (s_ "Kepler")) with true in H. cbv iota in H. cbn [obind] in H. cbv zeta in H.
  match type of H with obind (nodes _ _ _ _ ?k _) _ = _ => destruct (nodes number t rend true k os) as [rest|] eqn:E; [|discriminate] end.
  cbn [obind] in H. injection H as <-. destruct I as [<-|I].
  - exists (variable_name k, trail_asset number t rend (kepler_translation number o') o'). split; [left; reflexivity|]. cbv zeta. cbn [snd].
    assert (F : forall x y z fs, field "Renderable" (Some (view (asset x (gui y z) (LDict fs) LNone))) = Some (view (LDict fs))) by reflexivity.
    assert (Fi : forall x y z fs, field "Identifier" (Some (view (asset x (gui y z) (LDict fs) LNone))) = Some (Text x)) by reflexivity.
    unfold trail_asset. cbv zeta.
    assert (G : exists y z, (if to_head t then gui (object_of o' ++ s_ " Trail") (default (s_ "/ADAM") (to_gui_path t) ++ s_ "/" ++ object_of o') else gui (object_of o') (default (s_ "/ADAM") (to_gui_path t))) = gui y z)
      by (destruct (to_head t); eauto).
    destruct G as (y & z & ->). unfold trail_renderable. rewrite Fi, F. split; [reflexivity|]. rewrite view_dict.
    match goal with |- context [view_fields ?l] => set (fs := l) end.
    assert (N : NoDup (map (fun kv => key_text (fst kv)) fs)).
    { apply (NoDup_map_inv string_of_list_ascii). vm_compute map. repeat (constructor; [cbn [In]; intuition discriminate|]). constructor. }
    assert (Tr : field "Translation" (Some (Table (view_fields fs))) = Some (view (kepler_translation number o'))).
    { cbn [field]. change (s_ "Translation") with (key_text (s_ "translation")). rewrite (lookup_field fs (s_ "translation") (kepler_translation number o') N); [reflexivity|]. unfold fs. cbn [In]. tauto. }
    assert (Pe : field "Period" (Some (Table (view_fields fs))) = Some (view (num number (match to_period t with Some p => p | None => safe_period (o_P o') end)))).
    { cbn [field]. change (s_ "Period") with (key_text (s_ "period")). rewrite (lookup_field fs (s_ "period") (num number (match to_period t with Some p => p | None => safe_period (o_P o') end)) N); [reflexivity|]. unfold fs. cbn [In]. tauto. }
    assert (Sa : says number o' (Some (view (kepler_translation number o')))).
    { unfold says. repeat (split; [reflexivity|]). cbn. destruct (o_P o'); reflexivity. }
    rewrite Tr, Pe. split; [exact Sa|]. split; [cbn; destruct (to_period t), (o_P o'); reflexivity|].
    intros Hh. rewrite Hh. exists (variable_name (k + 1), head_asset t (kepler_translation number o') o'). split; [right; left; reflexivity|]. split; [reflexivity|]. cbn [snd].
    assert (Ft : forall l, field "Translation" (field "Transform" (Some (view (head_asset t (LDict l) o')))) = Some (view (LDict l))) by reflexivity.
    unfold kepler_translation at 1. rewrite Ft. exact Sa.
  - destruct (IH _ _ _ E I) as (x & X & Y). cbv zeta in Y. destruct Y as (A & B & C & D). exists x. split; [right; apply in_or_app; right; exact X|]. cbv zeta. split; [exact A|]. split; [exact B|]. split; [exact C|].
    intros Hh. destruct (D Hh) as (y & Y & D'). exists y. split; [right; apply in_or_app; right; exact Y|exact D'].
Qed.
Print Assumptions C247_units.
Example C247_ex : exists ns, nodes digits_of defaults LNone false 0 [row "Eros"] = OOk ns /\ List.length ns = 2.
Proof. eexists. split; [vm_compute; reflexivity|reflexivity]. Qed.

(* C248: the epochs of the file of elements *)
Open Scope Q_scope.
Theorem C248_epoch_partial : forall m, 0 <= m -> (m - inject_Z (Qfloor m)) * 86400000 < 86400000 - (1 # 2) -> written_epoch m == m.
Proof.
  intros m P H. unfold written_epoch, digits_after_point. cbv zeta. destruct (Qle_bool 0 m) eqn:E; [|assert (X : Qle_bool 0 m = true) by (apply Qle_bool_iff; auto); congruence].
  rewrite (proj1 (iso_day_spec m) H). ring.
Qed.
Print Assumptions C248_epoch_partial.
Theorem C248_midnight_refuted : forall m, 0 <= m -> 86400000 - (1 # 2) <= (m - inject_Z (Qfloor m)) * 86400000 -> written_epoch m == m + 1.
Proof.
  intros m P H. unfold written_epoch, digits_after_point. cbv zeta. destruct (Qle_bool 0 m) eqn:E; [|assert (X : Qle_bool 0 m = true) by (apply Qle_bool_iff; auto); congruence].
  rewrite (proj2 (iso_day_spec m) H), inject_Z_plus. change (inject_Z 1) with 1. ring.
Qed.
Print Assumptions C248_midnight_refuted.
Theorem C248_negative_refuted : exists m, m < 0 /\ ~ written_epoch m == m.
Proof. exists (-(1 # 4)). split; [reflexivity|]. vm_compute. discriminate. Qed.
Print Assumptions C248_negative_refuted.
Example C248_ex : (0 <= 60000 + (1 # 4)) /\ ((60000 + (1 # 4)) - inject_Z (Qfloor (60000 + (1 # 4)))) * 86400000 < 86400000 - (1 # 2) /\
  86400000 - (1 # 2) <= (60001 - (1 # 1000000000) - inject_Z (Qfloor (60001 - (1 # 1000000000)))) * 86400000.
Proof. repeat split; vm_compute; discriminate. Qed.
