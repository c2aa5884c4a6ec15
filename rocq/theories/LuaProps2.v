(* The options of a trail in the asset file. *)
From Coq Require Import Ascii String QArith Qround ZArith List Bool Lia Lqa.
From Verif Require Import Base MpcModel ObsModel AdesModel LuaModel LuaSpec LuaProofs LuaProofs2.
Import ListNotations.
Open Scope string_scope.
Open Scope list_scope.
Open Scope nat_scope.

(* an option of None is left out *)
Definition given (v : lval) : option tree := match v with LNone => None | _ => Some (view v) end.
(* C247: the renderable of every trail carries the options under their names, and no other option; opacity and
   the other common options are never written. *)
Theorem C247_options : forall number t rend os ns o, to_type t = s_ "Kepler" -> nodes number t rend false 0 os = OOk ns -> In o os ->
  exists x, In x ns /\ field "Identifier" (Some (view (snd x))) = Some (Text (safe (object_of o))) /\
    let r := field "Renderable" (Some (view (snd x))) in
    field "Type" r = Some (Text (s_ "RenderableTrailOrbit")) /\
    field "Color" r = given (to_color t) /\ field "Resolution" r = given (to_resolution t) /\
    field "EnableFade" r = given (to_enable_fade t) /\ field "LineFadeAmount" r = given (to_line_fade t) /\
    field "LineLength" r = given (to_line_length t) /\ field "LineWidth" r = given (to_line_width t) /\
    field "PointSize" r = given (to_point_size t) /\ field "Rendering" r = given rend /\
    field "Opacity" r = None /\ field "Enabled" r = None /\ field "DimInAtmosphere" r = None /\ field "RenderBinMode" r = None /\ field "Tag" r = None.
Proof.
  intros number t rend os ns o T H. assert (Hp : exists p k, nodes number t rend p k os = OOk ns) by eauto. clear H. destruct Hp as (prev & k & H). revert prev k H.
  revert ns. induction os as [|o' os IH]; intros ns prev k H I; [destruct I|].
  cbn [nodes] in H. unfold translation in H. rewrite T in H. change (str_eqb (s_ "Kepler") (s_ "Kepler")) with true in H. cbv iota in H. cbn [obind] in H. cbv zeta in H.
  match type of H with obind (nodes _ _ _ _ ?k _) _ = _ => destruct (nodes number t rend true k os) as [rest|] eqn:E; [|discriminate] end.
  cbn [obind] in H. injection H as <-. destruct I as [<-|I].
  - exists (variable_name k, trail_asset number t rend (kepler_translation number o') o'). split; [left; reflexivity|]. cbv zeta. cbn [snd].
    assert (F : forall x y z fs, field "Renderable" (Some (view (asset x (gui y z) (LDict fs) LNone))) = Some (view (LDict fs))) by reflexivity.
    assert (Fi : forall x y z fs, field "Identifier" (Some (view (asset x (gui y z) (LDict fs) LNone))) = Some (Text x)) by reflexivity.
    unfold trail_asset. cbv zeta.
    assert (G : exists y z, (if to_head t then gui (object_of o' ++ s_ " Trail") (default (s_ "/ADAM") (to_gui_path t) ++ s_ "/" ++ object_of o') else gui (object_of o') (default (s_ "/ADAM") (to_gui_path t))) = gui y z)
      by (destruct (to_head t); eauto).
    destruct G as (y & z & ->). unfold trail_renderable. rewrite Fi, F. split; [reflexivity|]. rewrite view_dict.
    match goal with |- context [view_fields ?l] => set (fs := l) end.
    assert (N : NoDup (map (fun kv => key_text (fst kv)) fs)).
    { apply (NoDup_map_inv string_of_list_ascii). vm_compute map. repeat (constructor; [cbn [In]; intuition discriminate|]). constructor. }
    assert (L : forall k v, In (k, v) fs -> lookup (key_text k) (view_fields fs) = given v) by (intros a b; apply lookup_field; exact N).
    cbn [field].
    repeat match goal with |- _ /\ _ => split end; first
      [ exact (L (s_ "type") (LStr (s_ "RenderableTrailOrbit")) ltac:(unfold fs; cbn [In]; tauto))
      | exact (L (s_ "color") (to_color t) ltac:(unfold fs; cbn [In]; tauto))
      | exact (L (s_ "resolution") (to_resolution t) ltac:(unfold fs; cbn [In]; tauto))
      | exact (L (s_ "enable_fade") (to_enable_fade t) ltac:(unfold fs; cbn [In]; tauto))
      | exact (L (s_ "line_fade_amount") (to_line_fade t) ltac:(unfold fs; cbn [In]; tauto))
      | exact (L (s_ "line_length") (to_line_length t) ltac:(unfold fs; cbn [In]; tauto))
      | exact (L (s_ "line_width") (to_line_width t) ltac:(unfold fs; cbn [In]; tauto))
      | exact (L (s_ "point_size") (to_point_size t) ltac:(unfold fs; cbn [In]; tauto))
      | exact (L (s_ "rendering") rend ltac:(unfold fs; cbn [In]; tauto))
      | exact (L (s_ "opacity") LNone ltac:(unfold fs; cbn [In]; tauto))
      | exact (L (s_ "enabled") LNone ltac:(unfold fs; cbn [In]; tauto))
      | exact (L (s_ "dim_in_atmosphere") LNone ltac:(unfold fs; cbn [In]; tauto))
      | exact (L (s_ "render_bin_mode") LNone ltac:(unfold fs; cbn [In]; tauto))
      | exact (L (s_ "tag") LNone ltac:(unfold fs; cbn [In]; tauto)) ].
  - destruct (IH _ _ _ E I) as (x & X & Y). exists x. split; [right; apply in_or_app; right; exact X|exact Y].
Qed.
Print Assumptions C247_options.
