(* What the properties of the older SBDB query, the risk corridor and the perceptual colour scale say. *)
From Coq Require Import QArith ZArith String List Bool.
From Verif Require Import Base ResModel CovModel TimeModel SbdbModel LateModel.
Import ListNotations.
Open Scope string_scope.
Open Scope list_scope.

(* parsed elements say what the elements of the payload say; a parsed list may lack entries *)
Definition reads (parse : string -> option num) (text : json -> string) (els : list json) (l : list (string * num)) : Prop :=
  forall name, In name ["q"; "e"; "i"; "om"; "w"; "tp"] ->
    (forall v, field l name = Ok v -> element_value parse text els name = Ok v)
    /\ (forall v, field l (name ++ "_sig") = Ok v -> element_sigma parse text els name = Ok v).
(* a parsed answer belongs to a payload of the service: the same object, epoch, elements and covariance *)
Definition belongs (parse : string -> option num) (text : json -> string) (payload : dict) (r : lres) : Prop :=
  (match l_object r with
   | None => has "object" payload = false
   | Some o => exists obj, get "object" payload = JObj obj /\ get "fullname" obj = JStr o
   end)
  /\ (exists orbit els, get "orbit" payload = JObj orbit /\ sbdb_float parse (get "epoch" orbit) = Ok (l_epoch r)
       /\ get "elements" orbit = JList els /\ reads parse text els (l_elements r)
       /\ match l_cov r with
          | None => get "covariance" orbit = JNull
          | Some c => exists cov, get "covariance" orbit = JObj cov /\ get "labels" cov = JList (map JStr (lc_labels c))
              /\ matrix_of parse (get "data" cov) = Ok (lc_data c)
              /\ (match lc_elements c with None => get "elements" cov = JNull | Some l => exists e, get "elements" cov = JList e /\ reads parse text e l end)
              /\ (match lc_epoch c with None => get "epoch" cov = JNull | Some t => sbdb_float parse (get "epoch" cov) = Ok t end)
          end)
  /\ exists p, phys_par parse text payload = Ok p.
(* equal but for the physical parameters *)
Definition same_orbit (a b : sorb) : Prop :=
  sb_id a = sb_id b /\ sb_object a = sb_object b /\ sb_time a = sb_time b /\ sb_scale a = sb_scale b /\ sb_coords a = sb_coords b
  /\ (forall i j, (i < 6)%nat -> (j < 6)%nat -> sb_cov a i j = sb_cov b i j) /\ sb_origin a = sb_origin b /\ sb_frame a = sb_frame b.

(* in the order of the epochs *)
Definition in_time (l : list spot) : Prop := StronglySorted (fun a b => (s_mjd a <= s_mjd b)%Q) l.
(* an admissible answer of numpy.argsort, equal epochs in any order *)
Definition orders (f : list spot -> list spot) : Prop := forall l, Permutation l (f l) /\ in_time (f l).
(* no channel of the second level is above that of the first *)
Definition darker (a b : level) : Prop := (v_red b <= v_red a /\ v_green b <= v_green a /\ v_blue b <= v_blue a)%Z.
