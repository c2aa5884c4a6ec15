(* Model of src/adam_core/observations/ades.py (definitions only).

   Text is ASCII.  Numbers are exact rationals, infinities or NaN ([fval]); printing rounds exactly
   and reading is exact (binary64 rounding is not modelled).  Writing a time (rescale to UTC, astropy
   isot) and reading it (Timestamp.from_iso8601) are parameters.  quivr's ValidationError and pyarrow
   failures on ragged columns are shown as RuntimeError. *)
From Coq Require Import Ascii String QArith Qround.
From Verif Require Import Base TimeModel MpcModel ObsModel.
Open Scope string_scope.
Open Scope Z_scope.
Open Scope list_scope.

(* ---- strings ---- *)
(* helper of [text_lines], ades.py:399 *)
Definition NL : ascii := "010".
(* s.split(c) for one character *)
(* helper of [text_lines], ades.py:399 *)
Fixpoint split_on (c : ascii) (s : str) : list str :=
  match s with
  | [] => [[]]
  | x :: r => if Ascii.eqb x c then [] :: split_on c r
              else match split_on c r with h :: t => (x :: h) :: t | [] => [[x]] end
  end.
(* c.join(l) *)
(* helper of [meta_line], ades.py:433-464 *)
Fixpoint join (c : ascii) (l : list str) : str :=
  match l with [] => [] | [x] => x | x :: r => x ++ c :: join c r end.
(* helper of [meta_line], ades.py:433-464 *)
Definition startswith (p s : str) : bool := str_eqb (firstn (List.length p) s) p.
(* p in s *)
(* helper of [read_lines], ades.py:402-424 *)
Fixpoint contains (p s : str) : bool :=
  startswith p s || match s with [] => false | _ :: r => contains p r end.
(* helper of [write], ades.py:182-305 *)
Fixpoint sleb (a b : str) : bool :=
  match a, b with
  | [], _ => true
  | _ :: _, [] => false
  | x :: a', y :: b' => if (nat_of_ascii x <? nat_of_ascii y)%nat then true
                        else if (nat_of_ascii y <? nat_of_ascii x)%nat then false else sleb a' b'
  end.
(* lines of a text: stripped, blank lines dropped; ades.py:399 *)
Definition text_lines (s : str) : list str := filter (fun l => match l with [] => false | _ => true end) (map strip (split_on NL s)).
(* f"{x:.{p}f}" *)
(* helper of [cell_text], ades.py:289-296 *)
Definition fixed (p : nat) (q : Q) : str :=
  let n := round_he ((if Qle_bool 0 q then q else - q) * inject_Z (10 ^ Z.of_nat p))%Q in
  (if Qle_bool 0 q then [] else ["-"%char]) ++ str_of (n / 10 ^ Z.of_nat p) ++
  match p with O => [] | _ => "."%char :: zfill p (str_of (n mod 10 ^ Z.of_nat p)) end.
(* helper of [cell_text], ades.py:289-296 *)
Definition show_num (p : nat) (x : fval) : str :=
  match x with FNum q => fixed p q | FInf neg => if neg then s_ "-inf" else s_ "inf" | FNan => s_ "nan" end.

(* ---- contexts, ades.py:18-145; a number is represented by the text str() gives for it ---- *)
Record software := mksoftware { w_astrometry : option str; w_fit : option str; w_photometry : option str; w_detection : option str }.
(* helper of [context_lines], ades.py:119-145 *)
Record context := mkcontext {
  c_code : str; c_oname : option str; c_sname : str; c_institution : option str; c_observers : list str; c_measurers : list str;
  c_design : str; c_aperture : str; c_detector : str; c_tname : option str; c_fratio : option str; c_filter : option str; c_array : option str; c_pixel : option str;
  c_software : option software; c_coinvestigators : option (list str); c_collaborators : option (list str); c_funding : option str; c_comments : option (list str) }.
(* helper of [context_lines], ades.py:119-145 *)
Definition bang (key : string) (v : str) : str := s_ "! " ++ s_ key ++ s_ " " ++ v.
(* helper of [context_lines], ades.py:119-145 *)
Definition bang_opt (key : string) (v : option str) : list str := match v with Some x => [bang key x] | None => [] end.
(* helper of [context_lines], ades.py:119-145 *)
Definition hash (key : string) : str := s_ "# " ++ s_ key.
(* helper of [context_lines], ades.py:119-145 *)
Definition names (key : string) (l : list str) : list str := hash key :: map (bang "name") l.
(* ades.py:119-145 *)
Definition context_lines (c : context) : list str :=
  hash "observatory" :: bang "mpcCode" (c_code c) :: bang_opt "name" (c_oname c) ++
  hash "submitter" :: bang "name" (c_sname c) :: bang_opt "institution" (c_institution c) ++
  names "observers" (c_observers c) ++ names "measurers" (c_measurers c) ++
  hash "telescope" :: bang "design" (c_design c) :: bang "aperture" (c_aperture c) :: bang "detector" (c_detector c) :: bang_opt "name" (c_tname c) ++
    bang_opt "fRatio" (c_fratio c) ++ bang_opt "filter" (c_filter c) ++ bang_opt "arraySize" (c_array c) ++ bang_opt "pixelSize" (c_pixel c) ++
  match c_software c with
  | Some w => hash "software" :: bang_opt "astrometry" (w_astrometry w) ++ bang_opt "fitOrder" (w_fit w) ++ bang_opt "photometry" (w_photometry w) ++
                bang_opt "objectDetection" (w_detection w)
  | None => []
  end ++
  match c_coinvestigators c with Some l => names "coinvestigators" l | None => [] end ++
  match c_collaborators c with Some l => names "collaborators" l | None => [] end ++
  match c_funding c with Some v => [s_ "# fundingSource " ++ v] | None => [] end ++
  match c_comments c with Some (x :: l) => hash "comment" :: map (bang "line") (x :: l) | _ => [] end.
(* ades.py:119-145 *)
Definition to_string (c : context) : str := join NL (context_lines c) ++ [NL].

(* dataclass checks, ades.py:23-26, 34-37, 51-64, 74-82, 98-117; float() of a number's text gives the number back *)
Definition short (n : nat) (s : str) : bool := (List.length s <=? n)%nat.
(* helper of [build], ades.py:472-524 *)
Definition oshort (n : nat) (s : option str) : bool := match s with Some x => short n x | None => true end.
(* helper of [build], ades.py:472-524 *)
Definition positive (s : str) : result bool :=
  bind (py_float s) (fun x => Ok match x with FNum q => negb (Qle_bool q 0) | FInf neg => negb neg | FNan => false end).
(* helper of [build], ades.py:472-524 *)
Definition opositive (s : option str) : result bool := match s with Some x => positive x | None => Ok true end.
(* helper of [build], ades.py:472-524 *)
Definition check (c : context) : result context :=
  bind (positive (c_aperture c)) (fun p1 => bind (opositive (c_fratio c)) (fun p2 => bind (opositive (c_pixel c)) (fun p3 =>
  if ((List.length (c_code c) =? 3) || (List.length (c_code c) =? 4))%nat && oshort 100 (c_oname c) &&
     short 100 (c_sname c) && oshort 100 (c_institution c) &&
     oshort 100 (c_tname c) && short 25 (c_design c) && p1 && short 25 (c_detector c) && p2 && oshort 25 (c_filter c) && oshort 25 (c_array c) && p3 &&
     match c_software c with
     | Some w => oshort 100 (w_astrometry w) && oshort 25 (w_fit w) && oshort 100 (w_photometry w) && oshort 100 (w_detection w)
     | None => true
     end &&
     negb (List.length (c_observers c) =? 0)%nat && forallb (short 100) (c_observers c) &&
     negb (List.length (c_measurers c) =? 0)%nat && forallb (short 100) (c_measurers c) &&
     match c_coinvestigators c with Some l => negb (List.length l =? 0)%nat && forallb (short 100) l | None => true end &&
     match c_collaborators c with Some l => negb (List.length l =? 0)%nat && forallb (short 100) l | None => true end &&
     oshort 100 (c_funding c) && match c_comments c with Some l => forallb (short 100) l | None => true end
  then Ok c else Err AssertionError))).

(* a dict: assignment keeps the position of an existing key *)
Section Dict.
Context {K V : Type} (eqb : K -> K -> bool).
(* helper of [build], ades.py:472-524 *)
Fixpoint dget (k : K) (d : list (K * V)) : option V :=
  match d with [] => None | (k', v) :: r => if eqb k k' then Some v else dget k r end.
(* helper of [meta_line], ades.py:433-464 *)
Fixpoint dset (k : K) (v : V) (d : list (K * V)) : list (K * V) :=
  match d with [] => [(k, v)] | (k', w) :: r => if eqb k k' then (k, v) :: r else (k', w) :: dset k v r end.
End Dict.
(* a section of the header: text on the section line, a dict of texts, or (observers, measurers, comment) a dict of lists *)
(* helper of [build], ades.py:472-524 *)
Inductive section := SText (s : str) | SDict (d : list (str * str)) | SList (d : list (str * list str)).
(* helper of [meta_line], ades.py:433-464 *)
Definition oeqb (a b : option str) : bool :=
  match a, b with Some x, Some y => str_eqb x y | None, None => true | _, _ => false end.
(* helper of [build], ades.py:472-524 *)
Definition header := list (option str * section).
(* the reader's state: current_section_key, current_obs_context, current_context_code, obs_contexts *)
(* helper of [meta_line], ades.py:433-464 *)
Record mstate := mkstate { m_section : option str; m_context : header; m_code : option str; m_contexts : list (option str * context) }.

(* helper of [build], ades.py:472-524 *)
Definition section_of (h : header) (k : string) : option section := dget oeqb (Some (s_ k)) h.
(* helper of [build], ades.py:472-524 *)
Definition dict_of (s : option section) : result (list (str * str)) :=
  match s with Some (SDict d) => Ok d | Some _ => Err TypeError | None => Err KeyError end.
(* helper of [build], ades.py:472-524 *)
Definition list_of (s : option section) (k : string) : result (list str) :=
  match s with
  | Some (SList d) => match dget str_eqb (s_ k) d with Some l => Ok l | None => Err KeyError end
  | Some _ => Err TypeError
  | None => Err KeyError
  end.
(* helper of [build], ades.py:472-524 *)
Definition need (d : list (str * str)) (k : string) : result str := match dget str_eqb (s_ k) d with Some v => Ok v | None => Err KeyError end.
(* ades.py:472-524; a section given as text raises AttributeError or TypeError, shown as TypeError *)
Definition build (h : header) : result context :=
  bind (dict_of (section_of h "observatory")) (fun o => bind (need o "mpcCode") (fun code =>
  bind (dict_of (section_of h "submitter")) (fun s => bind (need s "name") (fun sname =>
  bind (match section_of h "telescope" with None => Ok [] | x => dict_of x end) (fun t =>
  bind (need t "design") (fun design => bind (need t "aperture") (fun aperture =>
  bind (match dget str_eqb (s_ "detector") t with Some v => Ok v | None => Err TypeError end) (fun detector =>
  bind (match section_of h "software" with None => Ok [] | Some (SText []) => Ok [] | x => dict_of x end) (fun w =>
  bind (list_of (section_of h "observers") "name") (fun observers => bind (list_of (section_of h "measurers") "name") (fun measurers =>
  bind (match section_of h "fundingSource" with None => Ok None | Some (SText v) => Ok (Some v) | Some _ => Err TypeError end) (fun funding =>
  bind (match section_of h "comment" with
        | None => Ok []
        | Some (SList d) => Ok match dget str_eqb (s_ "line") d with Some l => l | None => [] end
        | Some _ => Err TypeError
        end) (fun comments =>
  let get d k := dget str_eqb (s_ k) d in
  check (mkcontext code (get o "name") sname (get s "institution") observers measurers
    design aperture detector (get t "name") (get t "fRatio") (get t "filter") (get t "arraySize") (get t "pixelSize")
    (match w with [] => None | _ => Some (mksoftware (get w "astrometry") (get w "fitOrder") (get w "photometry") (get w "objectDetection")) end)
    None None funding (Some comments))))))))))))))).
(* helper of [meta_line], ades.py:433-464 *)
Definition flush (m : mstate) : result (list (option str * context)) :=
  match m_context m with
  | [] => Ok (m_contexts m)
  | h => bind (build h) (fun c => Ok (dset oeqb (m_code m) c (m_contexts m)))
  end.
(* key, *value = [x.strip() for x in line.split(" ")] *)
(* helper of [meta_line], ades.py:433-464 *)
Definition key_value (l : str) : str * list str :=
  match map strip (split_on " " l) with k :: v => (k, v) | [] => ([], []) end.
(* helper of [meta_line], ades.py:433-464 *)
Definition is_list_section (k : option str) : bool :=
  match k with Some x => existsb (str_eqb x) [s_ "observers"; s_ "measurers"; s_ "comment"] | None => false end.
(* ades.py:433-464 *)
Definition meta_line (m : mstate) (line : str) : result mstate :=
  match line with
  | c :: r =>
    if Ascii.eqb c "#" then
      let l := strip r in
      if startswith (s_ "version") l then Ok m else
      let '(k, v) := key_value l in
      bind (if str_eqb k (s_ "observatory") then bind (flush m) (fun cs => Ok (mkstate (Some k) [] None cs))
            else Ok (mkstate (Some k) (m_context m) (m_code m) (m_contexts m))) (fun m' =>
      match v with
      | [] => Ok m'
      | _ => Ok (mkstate (m_section m') (dset oeqb (Some k) (SText (join " " v)) (m_context m')) (m_code m') (m_contexts m'))
      end)
    else if Ascii.eqb c "!" then
      let '(k, v) := key_value (strip r) in
      let value := join " " v in
      let code := if str_eqb k (s_ "mpcCode") then Some value else m_code m in
      let h := m_context m in let sk := m_section m in
      bind (if is_list_section sk then
              match dget oeqb sk h with
              | None => Ok (SList [(k, [value])])
              | Some (SList d) => Ok (SList (dset str_eqb k (match dget str_eqb k d with Some l => l ++ [value] | None => [value] end) d))
              | Some _ => Err AttributeError
              end
            else
              match dget oeqb sk h with
              | None => Ok (SDict [(k, value)])
              | Some (SDict d) => Ok (SDict (dset str_eqb k value d))
              | Some _ => Err TypeError
              end) (fun s =>
      Ok (mkstate sk (dset oeqb sk s h) code (m_contexts m)))
    else Ok m
  | [] => Ok m
  end.
(* ades.py:433-464, the loop over lines *)
Fixpoint meta_lines (m : mstate) (ls : list str) : result mstate :=
  match ls with [] => Ok m | l :: r => bind (meta_line m l) (fun m' => meta_lines m' r) end.
(* ades.py:380-469 ADES_string_to_tables, contexts *)
Definition read_contexts (text : str) : result (list (option str * context)) :=
  bind (meta_lines (mkstate None [] None []) (text_lines text)) flush.

(* ---- observations, ades.py:148-179 ---- *)
Record ades := mkades {
  a_perm : option str; a_prov : option str; a_trk : option str; a_sub : option str; a_time : row; a_rmstime : option fval;
  a_ra : fval; a_dec : fval; a_rmsra : option fval; a_rmsdec : option fval; a_corr : option fval; a_mag : option fval; a_rmsmag : option fval;
  a_band : option str; a_stn : str; a_mode : str; a_cat : str; a_phot : option str;
  a_snr : option fval; a_seeing : option fval; a_exp : option fval; a_remarks : option str }.
(* helper of [cell_text], ades.py:289-296 *)
Inductive cell := CS (s : str) | CN (x : fval) | CT (t : row).
(* helper of [read_cell], ades.py:321-367 *)
Inductive kind := KStr | KText | KNum | KTime.
(* columns in the order of the written table with their names in the file; required columns are not nullable *)
(* helper of [cell_text], ades.py:289-296 *)
Record column := mkcolumn { k_name : str; k_table : str; k_kind : kind; k_required : bool }.
(* helper of [present], ades.py:287 *)
Definition schema : list column :=
  [ mkcolumn (s_ "permID") (s_ "permID") KStr false; mkcolumn (s_ "provID") (s_ "provID") KStr false; mkcolumn (s_ "trkSub") (s_ "trkSub") KStr false;
    mkcolumn (s_ "obsSubID") (s_ "obsSubID") KStr false; mkcolumn (s_ "obsTime") (s_ "obsTime") KTime true; mkcolumn (s_ "rmsTime") (s_ "rmsTime") KNum false;
    mkcolumn (s_ "ra") (s_ "ra") KNum true; mkcolumn (s_ "dec") (s_ "dec") KNum true; mkcolumn (s_ "rmsRA") (s_ "rmsRACosDec") KNum false;
    mkcolumn (s_ "rmsDec") (s_ "rmsDec") KNum false; mkcolumn (s_ "rmsCorr") (s_ "rmsCorr") KNum false; mkcolumn (s_ "mag") (s_ "mag") KNum false;
    mkcolumn (s_ "rmsMag") (s_ "rmsMag") KNum false; mkcolumn (s_ "band") (s_ "band") KStr false; mkcolumn (s_ "stn") (s_ "stn") KStr true;
    mkcolumn (s_ "mode") (s_ "mode") KStr true; mkcolumn (s_ "astCat") (s_ "astCat") KStr true; mkcolumn (s_ "photCat") (s_ "photCat") KStr false;
    mkcolumn (s_ "logSNR") (s_ "logSNR") KNum false; mkcolumn (s_ "seeing") (s_ "seeing") KNum false; mkcolumn (s_ "exp") (s_ "exp") KNum false;
    mkcolumn (s_ "remarks") (s_ "remarks") KText false ].
(* helper of [present], ades.py:287 *)
Definition os (x : option str) : option cell := option_map CS x.
(* helper of [present], ades.py:287 *)
Definition on (x : option fval) : option cell := option_map CN x.
(* helper of [present], ades.py:287 *)
Definition cells (a : ades) : list (option cell) :=
  [ os (a_perm a); os (a_prov a); os (a_trk a); os (a_sub a); Some (CT (a_time a)); on (a_rmstime a); Some (CN (a_ra a)); Some (CN (a_dec a));
    on (a_rmsra a); on (a_rmsdec a); on (a_corr a); on (a_mag a); on (a_rmsmag a); os (a_band a); Some (CS (a_stn a)); Some (CS (a_mode a)); Some (CS (a_cat a));
    os (a_phot a); on (a_snr a); on (a_seeing a); on (a_exp a); os (a_remarks a) ].
(* helper of [read_row], ades.py:308-377 *)
Definition to_s (c : option cell) : option str := match c with Some (CS s) => Some s | _ => None end.
(* helper of [read_row], ades.py:308-377 *)
Definition to_n (c : option cell) : option fval := match c with Some (CN s) => Some s | _ => None end.
(* helper of [read_row], ades.py:308-377 *)
Definition req {A} (x : option A) : result A := match x with Some v => Ok v | None => Err RuntimeError end.
(* the validator of rmsRACosDec and rmsDec: every value present is in [1e-7, 100) *)
(* helper of [read_row], ades.py:308-377 *)
Definition rms_ok (x : option fval) : bool :=
  match x with None => true | Some (FNum q) => Qle_bool (1 # 10000000) q && negb (Qle_bool 100 q) | Some _ => false end.
(* helper of [read_row], ades.py:308-377 *)
Definition of_cells (l : list (option cell)) : result ades :=
  match l with
  | [perm; prov; trk; sub; time; rmstime; ra; dec; rmsra; rmsdec; corr; mag; rmsmag; band; stn; mode; cat; phot; snr; seeing; exp; remarks] =>
      bind (match time with Some (CT t) => Ok t | _ => Err RuntimeError end) (fun t =>
      bind (req (to_n ra)) (fun ra => bind (req (to_n dec)) (fun dec =>
      bind (req (to_s stn)) (fun stn => bind (req (to_s mode)) (fun mode => bind (req (to_s cat)) (fun cat =>
      if rms_ok (to_n rmsra) && rms_ok (to_n rmsdec) then
        Ok (mkades (to_s perm) (to_s prov) (to_s trk) (to_s sub) t (to_n rmstime) ra dec (to_n rmsra) (to_n rmsdec) (to_n corr) (to_n mag) (to_n rmsmag)
              (to_s band) stn mode cat (to_s phot) (to_n snr) (to_n seeing) (to_n exp) (to_s remarks))
      else Err RuntimeError))))))
  | _ => Err RuntimeError
  end.

(* ades.py:186-197 *)
Definition default_precision : list (str * nat) :=
  [(s_ "ra", 9%nat); (s_ "dec", 9%nat); (s_ "rmsRACosDec", 5%nat); (s_ "rmsDec", 5%nat); (s_ "rmsCorr", 8%nat); (s_ "mag", 4%nat); (s_ "rmsMag", 4%nat);
   (s_ "exp", 2%nat); (s_ "logSNR", 2%nat); (s_ "seeing", 2%nat)].

(* sort keys: missing values last *)
(* helper of [station], ades.py:234-303 *)
Definition oleb (a b : option str) : bool :=
  match a, b with _, None => true | None, Some _ => false | Some x, Some y => sleb x y end.
(* helper of [station], ades.py:234-303 *)
Definition rleb (a b : row) : bool := (days a <? days b) || ((days a =? days b) && (nanos a <=? nanos b)).
(* helper of [station], ades.py:234-303 *)
Definition obs_leb (a b : ades) : bool :=
  if negb (oeqb (a_prov a) (a_prov b)) then oleb (a_prov a) (a_prov b)
  else if negb (oeqb (a_perm a) (a_perm b)) then oleb (a_perm a) (a_perm b)
  else if negb (oeqb (a_trk a) (a_trk b)) then oleb (a_trk a) (a_trk b)
  else rleb (a_time a) (a_time b).
(* helper of [station], ades.py:234-303 *)
Definition isnone {A} (x : option A) : bool := match x with None => true | Some _ => false end.
(* pandas: a missing number is NaN *)
(* helper of [present], ades.py:287 *)
Definition isna (c : option cell) : bool := match c with None => true | Some (CN FNan) => true | Some _ => false end.

Section Files.
Variable show_time : row -> str.
Variable read_time : str -> result row.
Variable prec : list (str * nat).

(* ades.py:289-296 and to_csv (float_format "%.16f", missing values empty): the text of a cell *)
Definition cell_text (k : column) (c : option cell) : str :=
  match c with
  | Some (CS s) => s
  | Some (CT t) => show_time t ++ s_ "Z"
  | Some (CN x) => match dget str_eqb (k_table k) prec with
                   | Some p => show_num p x
                   | None => match x with FNan => [] | _ => show_num 16 x end
                   end
  | None => match k_kind k with
            | KNum => match dget str_eqb (k_table k) prec with Some p => s_ "nan" | None => [] end
            | _ => []
            end
  end.
(* csv.QUOTE_MINIMAL with doubled quotes *)
(* helper of [station], ades.py:234-303 *)
Definition special (c : ascii) : bool := Ascii.eqb c "|" || Ascii.eqb c """" || Ascii.eqb c NL || Ascii.eqb c "013".
(* helper of [station], ades.py:234-303 *)
Definition csv_field (s : str) : str :=
  if existsb special s then """"%char :: flat_map (fun c => if Ascii.eqb c """" then [c; c] else [c]) s ++ [""""%char] else s.
(* helper of [station], ades.py:234-303 *)
Fixpoint pick {A} (mask : list bool) (l : list A) : list A :=
  match mask, l with b :: m, x :: r => if b then x :: pick m r else pick m r | _, _ => [] end.
(* ades.py:287 dropna(how="all", axis=1): the columns with a value *)
Definition present (rows : list ades) : list bool :=
  map (fun j => existsb (fun a => negb (isna (nth j (cells a) None))) rows) (seq 0 (List.length schema)).
(* helper of [station], ades.py:234-303 *)
Definition row_line (mask : list bool) (a : ades) : str :=
  join "|" (map csv_field (pick mask (map (fun kc => cell_text (fst kc) (snd kc)) (combine schema (cells a))))).
(* helper of [station], ades.py:234-303 *)
Definition block_lines (rows : list ades) : list str :=
  let mask := present rows in join "|" (map csv_field (pick mask (map k_name schema))) :: map (row_line mask) rows.
(* helper of [station], ades.py:234-303 *)
Definition unlines (l : list str) : str := flat_map (fun x => x ++ [NL]) l.
(* ades.py:234-303 for one station *)
Definition station (obs : list ades) (ctxs : list (str * context)) (stn : str) : result str :=
  match dget str_eqb stn ctxs with
  | None => Err ValueError
  | Some c =>
      let rows := sort obs_leb (filter (fun a => str_eqb (a_stn a) stn) obs) in
      if forallb (fun a => isnone (a_perm a)) rows && forallb (fun a => isnone (a_prov a)) rows && forallb (fun a => isnone (a_trk a)) rows then Err ValueError
      else Ok (to_string c ++ unlines (block_lines rows))
  end.
(* helper of [write], ades.py:182-305 *)
Definition stations (obs : list ades) : list str := sort sleb (uniq str_eqb (map a_stn obs)).
(* ades.py:182-305 *)
Definition write (obs : list ades) (ctxs : list (str * context)) : result str :=
  bind (mapM (station obs ctxs) (stations obs)) (fun bs => Ok (s_ "# version=2022" ++ [NL] ++ concat bs)).

(* ades.py:321-367: one cell *)
Definition read_cell (k : kind) (x : str) : result (option cell) :=
  if blank x then match k with KTime => Err RuntimeError | _ => Ok None end
  else match k with
       | KNum => bind (py_float x) (fun v => Ok (Some (CN v)))
       | KStr => Ok (Some (CS (strip x)))
       | KText => Ok (Some (CS x))
       | KTime => bind (read_time (removelast x)) (fun t => Ok (Some (CT t)))
       end.
(* ades.py:308-377: a data line; columns that are not in the header are null, values beyond the header are ignored *)
Definition read_row (headers : list str) (fields : list str) : result ades :=
  bind (mapM (fun k => if memb str_eqb (k_name k) headers then
                         match dget str_eqb (k_name k) (combine headers fields) with Some x => read_cell (k_kind k) x | None => Err RuntimeError end
                       else Ok None) schema) of_cells.
(* helper of [read_lines], ades.py:402-424 *)
Definition is_meta (l : str) : bool := startswith (s_ "#") l || startswith (s_ "!") l.
(* helper of [read_lines], ades.py:402-424 *)
Definition is_header (l : str) : bool := contains (s_ "permID") l || contains (s_ "provID") l || contains (s_ "trkSub") l.
(* ades.py:402-424; header names of one block are assumed to be distinct *)
Fixpoint read_lines (headers : option (list str)) (ls : list str) : result (list ades) :=
  match ls with
  | [] => Ok []
  | l :: r =>
      if is_meta l then read_lines headers r
      else if is_header l then read_lines (Some (map strip (split_on "|" l))) r
      else match headers with
           | None => read_lines headers r
           | Some h => bind (read_row h (split_on "|" l)) (fun a => bind (read_lines headers r) (fun rest => Ok (a :: rest)))
           end
  end.
(* ades.py:380-469 ADES_string_to_tables, observations *)
Definition read_observations (text : str) : result (list ades) := read_lines None (text_lines text).
End Files.
