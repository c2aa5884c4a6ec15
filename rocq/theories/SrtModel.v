(* Model of sort_by_id_and_time. *)
From Coq Require Import ZArith List Bool Permutation Sorted.
From Verif Require Import Base.
Import ListNotations.
Open Scope Z_scope.

(* orbit_determination/iod.py:74-76: id, days and nanos of an observation *)
Definition observation := (Z * (Z * Z))%type.
(* a row of the joined table: index, linkage id, time or null *)
Definition jrow := (nat * (Z * option (Z * Z)))%type.

Section Members.
  Context {A : Type} (link obs : A -> Z).

  (* orbit_determination/iod.py:77-79: join of one member with all observations; a left outer join is pyarrow's default *)
  Definition join_one (os : list observation) (im : nat * A) : list jrow :=
    match filter (fun o => fst o =? obs (snd im)) os with
    | [] => [(fst im, (link (snd im), None))]
    | hits => map (fun o => (fst im, (link (snd im), Some (snd o)))) hits
    end.
  (* orbit_determination/iod.py:69-71: np.arange(0, len(members_table)) *)
  Definition indexed (ms : list A) : list (nat * A) := combine (seq 0 (length ms)) ms.
  (* orbit_determination/iod.py:77-79 *)
  Definition left_join (ms : list A) (os : list observation) : list jrow := flat_map (join_one os) (indexed ms).

  (* orbit_determination/iod.py:83-89: one comparison of the sort; nulls last, pyarrow's default *)
  Definition key_leb (a b : Z * option (Z * Z)) : bool :=
    if fst a =? fst b then
      match snd a, snd b with
      | _, None => true
      | None, Some _ => false
      | Some (d, n), Some (d', n') => if d =? d' then n <=? n' else d <? d'
      end
    else fst a <? fst b.

  (* orbit_determination/iod.py:91-92: take *)
  Definition take (rows : list A) (ix : list nat) : list A :=
    flat_map (fun i => match nth_error rows i with Some r => [r] | None => [] end) ix.

  (* orbit_determination/iod.py:68-98: the joined rows in any order, then sorted in any way that respects the comparison *)
  Definition sort_members (ms : list A) (os : list observation) (out : list A) : Prop :=
    exists joined sorted, Permutation joined (left_join ms os) /\ Permutation sorted joined
      /\ StronglySorted (fun a b => key_leb (snd a) (snd b) = true) sorted
      /\ out = take ms (map fst sorted).

  (* orbit_determination/iod.py:62-65, 82, 91 *)
  Definition sort_linkages (ls : list A) (out : list A) : Prop :=
    exists sorted, Permutation sorted (map (fun il => (fst il, link (snd il))) (indexed ls))
      /\ StronglySorted (fun a b => snd a <=? snd b = true) sorted
      /\ out = take ls (map fst sorted).
End Members.
