(* Specification vocabulary for ADES files. *)
From Coq Require Import Ascii String QArith Permutation Sorted.
From Verif Require Import Base TimeModel MpcModel ObsModel AdesModel.
Open Scope string_scope.
Open Scope Z_scope.
Open Scope list_scope.

Definition code (c : ascii) : nat := nat_of_ascii c.
Definition white (c : ascii) : Prop := (9 <= code c <= 13 \/ 28 <= code c <= 32)%nat.
Definition occurs (k s : list ascii) : Prop := exists a b, s = a ++ k ++ b.
(* no whitespace at the ends *)
Definition trimmed (s : list ascii) : Prop := (forall c r, s = c :: r -> ~ white c) /\ (forall c r, s = r ++ [c] -> ~ white c).
Definition keywords : list (list ascii) := [s_ "permID"; s_ "provID"; s_ "trkSub"].
(* text that is safe in a table: not empty, trimmed, without separator, quote or line break, and without the words that mark a header *)
Definition safe_char (c : ascii) : Prop := ~ In c ["|"%char; """"%char; "010"%char; "013"%char].
Definition safe (s : list ascii) : Prop := s <> [] /\ trimmed s /\ Forall safe_char s /\ forall k, In k keywords -> ~ occurs k s.
Definition osafe (s : option (list ascii)) : Prop := forall x, s = Some x -> safe x.
Definition id_safe (s : option (list ascii)) : Prop := forall x, s = Some x -> safe x /\ forall c r, x = c :: r -> c <> "#"%char /\ c <> "!"%char.
Definition safe_row (a : ades) : Prop :=
  id_safe (a_perm a) /\ id_safe (a_prov a) /\ id_safe (a_trk a) /\ osafe (a_sub a) /\ osafe (a_band a) /\ safe (a_stn a) /\ safe (a_mode a) /\ safe (a_cat a) /\
  osafe (a_phot a) /\ osafe (a_remarks a).
(* finite numbers; the standard deviations are large enough to survive five decimals *)
Definition finite (x : fval) : Prop := exists q, x = FNum q /\ (- inject_Z (10 ^ 300) <= q <= inject_Z (10 ^ 300))%Q.
Definition ofinite (x : option fval) : Prop := forall v, x = Some v -> finite v.
Definition orms (x : option fval) : Prop := forall v, x = Some v -> exists q, v = FNum q /\ ((1 # 100000) <= q <= 99)%Q.
Definition numbers_ok (a : ades) : Prop :=
  finite (a_ra a) /\ finite (a_dec a) /\ orms (a_rmsra a) /\ orms (a_rmsdec a) /\ ofinite (a_rmstime a) /\ ofinite (a_corr a) /\ ofinite (a_mag a) /\ ofinite (a_rmsmag a) /\
  ofinite (a_snr a) /\ ofinite (a_seeing a) /\ ofinite (a_exp a).
(* within one station a number is given for every observation or for none *)
Definition uniform (obs : list ades) (f : ades -> option fval) : Prop :=
  forall a b, In a obs -> In b obs -> a_stn a = a_stn b -> (f a = None <-> f b = None).
Definition uniform_numbers (obs : list ades) : Prop :=
  forall f, In f [a_rmsra; a_rmsdec; a_corr; a_mag; a_rmsmag; a_snr; a_seeing; a_exp] -> uniform obs f.
(* times are written with digits and - : T . and read as [again] *)
Definition stamp_char (c : ascii) : Prop := (48 <= code c <= 57)%nat \/ In c ["-"%char; ":"%char; "T"%char; "."%char].
Definition stamps (show : row -> list ascii) (read : list ascii -> result row) (again : row -> row) : Prop :=
  forall t, Forall stamp_char (show t) /\ read (show t) = Ok (again t).
(* what a reader gets: the same text, numbers to half a unit of the last printed decimal *)
Definition near (p : Z) (x y : fval) : Prop :=
  exists q r, x = FNum q /\ y = FNum r /\ (- (1 # 2) <= (r - q) * inject_Z (10 ^ p) <= 1 # 2)%Q.
Definition onear (p : Z) (x y : option fval) : Prop :=
  match x, y with Some a, Some b => near p a b | None, None => True | _, _ => False end.
Definition reread (again : row -> row) (a b : ades) : Prop :=
  a_perm b = a_perm a /\ a_prov b = a_prov a /\ a_trk b = a_trk a /\ a_sub b = a_sub a /\ a_time b = again (a_time a) /\ onear 16 (a_rmstime a) (a_rmstime b) /\
  near 9 (a_ra a) (a_ra b) /\ near 9 (a_dec a) (a_dec b) /\ onear 5 (a_rmsra a) (a_rmsra b) /\ onear 5 (a_rmsdec a) (a_rmsdec b) /\ onear 8 (a_corr a) (a_corr b) /\
  onear 4 (a_mag a) (a_mag b) /\ onear 4 (a_rmsmag a) (a_rmsmag b) /\ a_band b = a_band a /\ a_stn b = a_stn a /\ a_mode b = a_mode a /\ a_cat b = a_cat a /\
  a_phot b = a_phot a /\ onear 2 (a_snr a) (a_snr b) /\ onear 2 (a_seeing a) (a_seeing b) /\ onear 2 (a_exp a) (a_exp b) /\ a_remarks b = a_remarks a.

(* order of the written rows: station, provID, permID, trkSub, time; missing identifiers last *)
Definition slt (x y : list ascii) : Prop :=
  (exists c r, y = x ++ c :: r) \/ (exists p c d r s, x = p ++ c :: r /\ y = p ++ d :: s /\ (code c < code d)%nat).
Definition olt (x y : option (list ascii)) : Prop :=
  match x, y with Some a, Some b => slt a b | Some _, None => True | _, _ => False end.
Definition tle (a b : row) : Prop := days a < days b \/ days a = days b /\ nanos a <= nanos b.
Definition before (a b : ades) : Prop :=
  slt (a_stn a) (a_stn b) \/ a_stn a = a_stn b /\ (olt (a_prov a) (a_prov b) \/ a_prov a = a_prov b /\ (olt (a_perm a) (a_perm b) \/ a_perm a = a_perm b /\
    (olt (a_trk a) (a_trk b) \/ a_trk a = a_trk b /\ tle (a_time a) (a_time b)))).

(* ---- contexts ---- *)
Definition plain_text (v : list ascii) : Prop := Forall (fun c => c = " "%char \/ ~ white c) v /\ forall r, v <> r ++ [" "%char].
Definition oplain (v : option (list ascii)) : Prop := forall x, v = Some x -> plain_text x.
Definition strings_of (c : context) (P : list ascii -> Prop) : Prop :=
  let o v := forall x, v = Some x -> P x in let l v := Forall P v in let ol v := forall x, v = Some x -> Forall P x in
  P (c_code c) /\ o (c_oname c) /\ P (c_sname c) /\ o (c_institution c) /\ l (c_observers c) /\ l (c_measurers c) /\ P (c_design c) /\ P (c_aperture c) /\ P (c_detector c) /\
  o (c_tname c) /\ o (c_fratio c) /\ o (c_filter c) /\ o (c_array c) /\ o (c_pixel c) /\
  (forall w, c_software c = Some w -> o (w_astrometry w) /\ o (w_fit w) /\ o (w_photometry w) /\ o (w_detection w)) /\
  ol (c_coinvestigators c) /\ ol (c_collaborators c) /\ o (c_funding c) /\ ol (c_comments c).
(* no string of the context contains a line break *)
Definition one_line (c : context) : Prop := strings_of c (fun s => ~ In "010"%char s).
Definition plain_context (c : context) : Prop := strings_of c plain_text /\ c_funding c <> Some [].
(* what is left of a context: no coinvestigators or collaborators, no empty software section, a list of comments *)
Definition kept (c : context) : context :=
  mkcontext (c_code c) (c_oname c) (c_sname c) (c_institution c) (c_observers c) (c_measurers c) (c_design c) (c_aperture c) (c_detector c) (c_tname c) (c_fratio c)
    (c_filter c) (c_array c) (c_pixel c)
    (match c_software c with Some (mksoftware None None None None) => None | x => x end)
    None None (c_funding c) (match c_comments c with None => Some [] | x => x end).
(* a context the reader can represent in full *)
Definition whole (c : context) : Prop :=
  c_coinvestigators c = None /\ c_collaborators c = None /\ c_comments c <> None /\ c_software c <> Some (mksoftware None None None None).
(* an observation of a station; one with an identifier *)
Definition observed (obs : list ades) (s : list ascii) : Prop := exists a, In a obs /\ a_stn a = s.
Definition identified (a : ades) : Prop := a_perm a <> None \/ a_prov a <> None \/ a_trk a <> None.
