(* What C227-C231 speak about, apart from the model. *)
From Coq Require Import QArith ZArith String List Bool.
From Verif Require Import Base ResModel TimeModel SbdbModel ScoutModel.
Import ListNotations.
Open Scope string_scope.
Open Scope list_scope.
Open Scope nat_scope.

(* statuses that are failures *)
Definition failing (s : Z) : Prop := (400 <= s < 600)%Z.
(* failures after which it makes sense to ask again *)
Definition busy (s : Z) : Prop := s = 429%Z \/ (500 <= s)%Z.
(* replies after which the code asks again *)
Definition momentary (r : sreply) : Prop :=
  match r with
  | SNone => True
  | SResponse s body => failing s /\ busy s \/ ~ failing s /\ body = None
  end.
(* a text within another *)
Definition within (t s : string) : Prop := exists a b, s = (a ++ t ++ b)%string.
(* one of some texts within another *)
Definition mentions (ts : list string) (s : string) : Prop := exists t, In t ts /\ within t s.
Definition gone_words : list string := ["not found"; "no object"; "does not exist"; "unknown object"; "invalid designation"].
Definition busy_words : list string := ["temporar"; "service unavailable"; "timeout"; "try again"; "rate limit"; "internal server"].

(* what the last reply for an object makes of the request *)
Inductive answer (text : json -> string) (fold : string -> string) (object : string) : sreply -> sres dict -> Prop :=
| a_none : answer text fold object SNone (SErr (SUnavailable object None))
| a_404 b : answer text fold object (SResponse 404 b) (SErr (SNotFound object (Some 404%Z)))
| a_busy s b : failing s -> busy s -> answer text fold object (SResponse s b) (SErr (SUnavailable object (Some s)))
| a_http s b : failing s -> ~ busy s -> s <> 404%Z -> answer text fold object (SResponse s b) (SErr (SQuery object (Some s)))
| a_body s : ~ failing s -> answer text fold object (SResponse s None) (SErr (SUnavailable object None))
| a_type s j : ~ failing s -> (forall p, j <> JObj p) -> answer text fold object (SResponse s (Some j)) (SErr (SMalformed object))
| a_ok s p : ~ failing s -> truthy (get "error" p) = false -> answer text fold object (SResponse s (Some (JObj p))) (SOk p)
| a_gone s p : ~ failing s -> truthy (get "error" p) = true -> mentions gone_words (fold (str_of_json text (get "error" p))) ->
    answer text fold object (SResponse s (Some (JObj p))) (SErr (SNotFound object None))
| a_later s p : ~ failing s -> truthy (get "error" p) = true -> ~ mentions gone_words (fold (str_of_json text (get "error" p))) ->
    mentions busy_words (fold (str_of_json text (get "error" p))) ->
    answer text fold object (SResponse s (Some (JObj p))) (SErr (SUnavailable object None))
| a_error s p : ~ failing s -> truthy (get "error" p) = true -> ~ mentions gone_words (fold (str_of_json text (get "error" p))) ->
    ~ mentions busy_words (fold (str_of_json text (get "error" p))) ->
    answer text fold object (SResponse s (Some (JObj p))) (SErr (SMalformed object)).

(* the server gives this object, without an error and signed 1.3, in one of the first so many replies *)
Definition delivers (text : json -> string) (max_attempts : Z) (replies : nat -> sreply) (p sg : dict) : Prop :=
  (exists n s, (Z.of_nat n < Z.max 1 max_attempts)%Z /\ (forall i, i < n -> momentary (replies i)) /\ replies n = SResponse s (Some (JObj p)) /\ ~ failing s) /\
  truthy (get "error" p) = false /\ get "signature" p = JObj sg /\ str_of_json text (get "version" sg) = "1.3".

(* a number given as text in a row of samples *)
Definition number_at (parse : string -> option num) (cells : list json) (c : nat) (x : num) : Prop :=
  exists s, nth_error cells c = Some (JStr s) /\ parse s = Some x.
(* the result of one sample: [idx epoch ec qr tp om w inc ...] *)
Definition sample (parse : string -> option num) (object : string) (cells : list json) (v : svar) : Prop :=
  15 <= List.length cells /\ sv_object v = object /\
  (exists z q, nth_error cells 0 = Some (JNum (Some q)) /\ (q == inject_Z z)%Q /\ sv_orbit v = zdec z /\ sv_variant v = zdec z) /\
  (exists q, number_at parse cells 1 (Some q) /\ sv_time v = from_jd q) /\
  (exists qr ec inc om w tp, number_at parse cells 3 qr /\ number_at parse cells 2 ec /\ number_at parse cells 7 inc /\ number_at parse cells 5 om /\
     number_at parse cells 6 w /\ number_at parse cells 4 tp /\ sv_coords v = [qr; ec; inc; om; w; match tp with Some q => Some (q - (24000005 # 10))%Q | None => None end]) /\
  sv_origin v = "SUN" /\ sv_frame v = "ecliptic".
