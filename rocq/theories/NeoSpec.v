(* What an OEF file says, independent of the code that reads it: a header, a line with the id, and a body of comments and
   records of fields separated by blanks. *)
From Coq Require Import Ascii String QArith ZArith List Bool.
From Verif Require Import Base MpcModel ObsModel AdesModel AdesSpec ObsProofs CovSpec.
Import ListNotations.
Open Scope string_scope.
Open Scope list_scope.
Open Scope nat_scope.

(* a line of fields: every field is preceded by blanks, and blanks may follow the last *)
Inductive laid : list str -> str -> Prop :=
| laid_end : forall p, allspace p -> laid [] p
| laid_field : forall p w ws rest, allspace p -> p <> [] -> nospace w -> w <> [] -> laid ws rest -> laid (w :: ws) (p ++ w ++ rest).

(* an entry of the body *)
Inductive entry := Remark (text : str) | Fields (keyword : str) (values : list str).
Definition keywords5 : list str := [s_ "KEP"; s_ "MJD"; s_ "MAG"; s_ "COV"; s_ "COR"].
Definition begins (p s : str) : Prop := exists r, s = p ++ r.
(* the line of an entry; a keyword is one of the five or begins with none of them *)
Inductive entry_line : entry -> str -> Prop :=
| remark_line : forall t, ~ In NL t -> entry_line (Remark t) ("!"%char :: t)
| fields_line : forall kw vs l, laid (kw :: vs) l -> begins [" "%char] l -> ~ In NL l ->
    (forall k, In k keywords5 -> begins k kw -> kw = k) -> entry_line (Fields kw vs) l.
(* the values of the records of a keyword, in order *)
Definition values (kw : string) (body : list entry) : list (list str) :=
  flat_map (fun e => match e with Fields k vs => if str_eqb k (s_ kw) then [vs] else [] | Remark _ => [] end) body.

(* a line of the header that is not the reference system *)
Definition other_header (l : str) : Prop :=
  ~ In NL l /\ (begins (s_ "format") l \/ begins (s_ "rectype") l \/ begins (s_ "!") l).
(* the line of the reference system, quoted or not, with or without a remark *)
Definition refsys_line (v l : str) : Prop :=
  exists a b c t q, l = s_ "refsys" ++ a ++ "="%char :: b ++ q ++ v ++ q ++ c ++ t /\ allspace a /\ allspace b /\ allspace c /\
    (t = [] \/ begins (s_ "!") t) /\ (q = [] \/ q = ["'"%char]) /\ ~ In NL l.
(* a value of a header or an id: not empty, no blank and no quote at either end, no "!" *)
Definition plain_value (v : str) : Prop := trimmed v /\ v <> [] /\ ~ In "!"%char v /\ ~ In "'"%char v.
Definition plain_id (i : str) : Prop :=
  trimmed i /\ i <> [] /\ ~ In NL i /\
  forall p, In p (keywords5 ++ [s_ "!"; s_ "format"; s_ "rectype"; s_ "refsys"; s_ "END_OF_HEADER"]) -> ~ begins p i.

(* the last character is visible *)
Definition ends_visible (l : str) : Prop := exists r c, l = r ++ [c] /\ ~ white c.
(* a file: id, reference system, body *)
Record file := mkfile { f_id : str; f_refsys : str; f_body : list entry }.
Inductive written (f : file) : str -> Prop :=
| written_text : forall h1 r h2 ls pre post,
    Forall other_header h1 -> refsys_line (f_refsys f) r -> Forall other_header h2 -> plain_value (f_refsys f) -> plain_id (f_id f) ->
    Forall2 entry_line (f_body f) ls ->
    (forall ls' l, ls = ls' ++ [l] -> ends_visible l) ->
    allspace pre -> allspace post ->
    written f (pre ++ join NL (h1 ++ r :: h2 ++ s_ "END_OF_HEADER" :: f_id f :: ls) ++ post).

(* ---- what the records of a body say ---- *)
Definition reads (fl : str -> option Q) (ts : list str) (qs : list Q) : Prop := Forall2 (fun t q => fl t = Some q) ts qs.
(* a symmetric matrix whose upper triangle, row by row, is the list; of a 7 by 7 triangle the last column is left out *)
Definition matrix_of (v : list Q) (m : nat -> nat -> Q) : Prop :=
  exists n, (n = 6 /\ List.length v = 21 \/ n = 7 /\ List.length v = 28) /\
  forall i j, i < 6 -> j < 6 -> m i j = m j i /\ (i <= j -> nth_error v (upper_position n i j) = Some (m i j)).
Definition optional_matrix (v : list Q) (o : option (nat -> nat -> Q)) : Prop :=
  v = [] /\ o = None \/ exists m, o = Some m /\ matrix_of v m.
Definition triangle_length (v : list Q) : Prop := List.length v = 0 \/ List.length v = 21 \/ List.length v = 28.
Record content := mkcontent { k_elements : list Q; k_epoch : option (Q * str); k_mag : option (Q * Q); k_cov : list Q; k_cor : list Q }.
Definition says (fl : str -> option Q) (body : list entry) (k : content) : Prop :=
  (exists six more, values "KEP" body = [six ++ more] /\ reads fl six (k_elements k) /\ List.length six = 6) /\
  match k_epoch k with
  | None => values "MJD" body = []
  | Some (q, ts) => exists m more, values "MJD" body = [m :: ts :: more] /\ fl m = Some q
  end /\
  match k_mag k with
  | None => values "MAG" body = []
  | Some (h, g) => exists a b more, values "MAG" body = [a :: b :: more] /\ fl a = Some h /\ fl b = Some g
  end /\
  reads fl (concat (values "COV" body)) (k_cov k) /\ triangle_length (k_cov k) /\
  reads fl (concat (values "COR" body)) (k_cor k) /\ triangle_length (k_cor k).

(* the name of the file of an object: its id without blanks, the kind of elements and the epoch *)
Definition address (i epoch : str) : str := filter (fun c => negb (Ascii.eqb c " ")) i ++ s_ ".ke" ++ epoch.
(* a file the query can use: in TDT and ECLM J2000, with a covariance *)
Definition usable (fl : str -> option Q) (text : str) (f : file) (k : content) (q : Q) : Prop :=
  written f text /\ says fl (f_body f) k /\ f_refsys f = s_ "ECLM J2000" /\ k_epoch k = Some (q, s_ "TDT") /\ k_cov k <> [].
