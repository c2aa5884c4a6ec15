(* A reader of Lua tables, written from the manual of Lua and not from the code: names, quoted texts with escapes, calls of a
   function on one text, tables of keyed and unkeyed values. *)
From Coq Require Import Ascii String ZArith List Bool.
From Verif Require Import Base MpcModel AdesModel.
Import ListNotations.
Open Scope string_scope.
Open Scope list_scope.
Open Scope nat_scope.

Inductive tok := TOpen | TClose | TEq | TComma | TLeft | TRight | TText (s : str) | TWord (s : str).
Definition punct (c : ascii) : option tok :=
  if Ascii.eqb c "{" then Some TOpen else if Ascii.eqb c "}" then Some TClose else if Ascii.eqb c "=" then Some TEq
  else if Ascii.eqb c "," then Some TComma else if Ascii.eqb c "(" then Some TLeft else if Ascii.eqb c ")" then Some TRight else None.
Definition quote : ascii := """".
Definition backslash : ascii := "\".
Definition unescape (c : ascii) : option ascii :=
  if Ascii.eqb c quote then Some quote else if Ascii.eqb c backslash then Some backslash else if Ascii.eqb c "n" then Some NL else None.
(* between tokens; in a word; in a text; after a backslash; the characters so far are reversed *)
Inductive state := Between | InWord (w : str) | InText (a : str) | Escaped (a : str).
Definition emit (l : list tok) (r : option (list tok)) : option (list tok) := match r with Some x => Some (l ++ x) | None => None end.
Fixpoint lex (s : str) (st : state) : option (list tok) :=
  match s with
  | [] => match st with Between => Some [] | InWord w => Some [TWord (rev w)] | _ => None end
  | c :: r =>
      match st with
      | InText a => if Ascii.eqb c quote then emit [TText (rev a)] (lex r Between)
                    else if Ascii.eqb c backslash then lex r (Escaped a) else if Ascii.eqb c NL then None else lex r (InText (c :: a))
      | Escaped a => match unescape c with Some d => lex r (InText (d :: a)) | None => None end
      | _ =>
          let before := match st with InWord w => [TWord (rev w)] | _ => [] end in
          if is_space c then emit before (lex r Between)
          else match punct c with
               | Some t => emit (before ++ [t]) (lex r Between)
               | None => if Ascii.eqb c quote then emit before (lex r (InText []))
                         else lex r (InWord (c :: match st with InWord w => w | _ => [] end))
               end
      end
  end.

(* what a text of Lua says *)
Inductive tree := Text (s : str) | Atom (s : str) | Call (f s : str) | Table (l : list (option str * tree)).
Fixpoint pvalue (n : nat) (ts : list tok) : option (tree * list tok) :=
  match n with
  | 0 => None
  | S n =>
      match ts with
      | TText s :: r => Some (Text s, r)
      | TWord w :: TLeft :: TText s :: TRight :: r => Some (Call w s, r)
      | TWord w :: r => Some (Atom w, r)
      | TOpen :: r => match pitems n r with Some (l, r') => Some (Table l, r') | None => None end
      | _ => None
      end
  end
with pitems (n : nat) (ts : list tok) : option (list (option str * tree) * list tok) :=
  match n with
  | 0 => None
  | S n =>
      match ts with
      | TClose :: r => Some ([], r)
      | _ =>
          let '(key, ts') := match ts with TWord k :: TEq :: r => (Some k, r) | _ => (None, ts) end in
          match pvalue n ts' with
          | Some (v, TComma :: r) => match pitems n r with Some (l, q) => Some ((key, v) :: l, q) | None => None end
          | Some (v, TClose :: r) => Some ([(key, v)], r)
          | _ => None
          end
      end
  end.
(* a text says one value, however much fuel the reader has beyond some number *)
Definition reads_as (s : str) (t : tree) : Prop :=
  exists ts, lex s Between = Some ts /\ exists n, forall m, n <= m -> pvalue m ts = Some (t, []).

(* texts that need no escape *)
Definition plain_char (c : ascii) : Prop := c <> quote /\ c <> backslash /\ c <> NL.
Definition plain (s : str) : Prop := Forall plain_char s.
(* numbers, names and the like *)
Definition word_char (c : ascii) : Prop := is_space c = false /\ punct c = None /\ c <> quote.
Definition word (s : str) : Prop := Forall word_char s /\ s <> [].

(* the value of a field of a table *)
Fixpoint lookup (k : str) (l : list (option str * tree)) : option tree :=
  match l with [] => None | (Some k', v) :: r => if str_eqb k k' then Some v else lookup k r | (None, _) :: r => lookup k r end.
Definition field (k : string) (t : option tree) : option tree := match t with Some (Table l) => lookup (s_ k) l | _ => None end.
(* names of fields as Python writes them: words of small letters and digits, joined by "_", each beginning with a letter *)
Definition small (c : ascii) : Prop := 97 <= nat_of_ascii c <= 122.
Definition digit (c : ascii) : Prop := 48 <= nat_of_ascii c <= 57.
Definition snake_word (w : str) : Prop := exists c r, w = c :: r /\ small c /\ Forall (fun x => small x \/ digit x) r.
Definition snake (k : str) : Prop := exists ws, ws <> [] /\ Forall snake_word ws /\ k = join "_" ws.
