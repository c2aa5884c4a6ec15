(* What C220-C226 speak about, apart from the model. *)
From Coq Require Import QArith ZArith String List Bool.
From Verif Require Import Base ResModel SbdbModel.
Import ListNotations.
Open Scope string_scope.
Open Scope list_scope.
Open Scope nat_scope.

(* the elements in the order of the cometary coordinates, by the names SBDB's covariance uses *)
Definition comet_names : list string := ["q"; "e"; "i"; "node"; "peri"; "tp"].
(* the order of the rows and columns of SBDB's covariance *)
Definition sbdb_names : list string := ["e"; "q"; "tp"; "node"; "peri"; "i"].
(* the same element in both orders *)
Definition same_element (a c : nat) : Prop := a < 6 /\ nth_error comet_names a = nth_error sbdb_names c.
(* the place in SBDB's order of the a-th cometary element *)
Definition place (a : nat) : nat := nth a [1; 0; 5; 3; 4; 2] 6.
(* the value of a quadratic form of six variables *)
Definition six : list nat := seq 0 6.
Definition qsum (l : list Q) : Q := fold_right Qplus 0%Q l.
Definition quadratic (m : nat -> nat -> Q) (v : nat -> Q) : Q :=
  qsum (map (fun a => qsum (map (fun b => v a * v b * m a b)%Q six)) six).
(* symmetric in its first six rows and columns *)
Definition symmetric6 {A} (m : nat -> nat -> A) : Prop := forall i j, i < 6 -> j < 6 -> m i j = m j i.
(* a failure after which it makes sense to ask again *)
Definition transient (r : reply) : Prop :=
  match r with RTimeout | RConnection => True | RHttp (Some s) _ => (500 <= s)%Z \/ s = 429%Z | _ => False end.
(* any other failure, with its exception *)
Definition permanent (r : reply) (e : err) : Prop :=
  match r with
  | RHttp (Some s) e' => e = e' /\ (s < 500)%Z /\ s <> 429%Z
  | RHttp None e' | ROther e' => e = e'
  | _ => False
  end.
(* a JSON number, or text that reads as one *)
Definition reads (parse : string -> option num) (j : json) (x : num) : Prop := j = JNum x \/ exists s, j = JStr s /\ parse s = Some x.
(* a JSON matrix with these entries *)
Definition reads_matrix (parse : string -> option num) (j : json) (m : list (list num)) : Prop :=
  exists rows, j = JList rows /\ Forall2 (fun r xs => exists cells, r = JList cells /\ Forall2 (reads parse) cells xs) rows m.
(* the last entry of a list with that name *)
Definition the_element (text : json -> string) (l : list json) (name : string) (el : dict) : Prop :=
  exists l1 l2, l = l1 ++ JObj el :: l2 /\ get "name" el = JStr name /\
  forall o, In (JObj o) l2 -> get "name" o = JNull \/ str_of_json text (get "name" o) <> name.
(* the elements of a solution and their epoch: those of the covariance if it has both, those of the orbit if it has none *)
Inductive solution_block (orbit : dict) : list json -> json -> Prop :=
| of_covariance cov l : get "covariance" orbit = JObj cov -> get "data" cov <> JNull -> get "elements" cov = JList l -> get "epoch" cov <> JNull ->
    solution_block orbit l (get "epoch" cov)
| of_orbit l : get "elements" orbit = JList l ->
    (forall cov, get "covariance" orbit = JObj cov -> get "data" cov = JNull \/ get "elements" cov = JNull) ->
    solution_block orbit l (get "epoch" orbit).
