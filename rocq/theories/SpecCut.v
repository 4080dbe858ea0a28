(** What a payload means of which the end is missing: C09. *)
From Coq Require Import ZArith List Bool.
From Verif Require Import Bytes GoVal.
Import ListNotations.

(** [loses p r p']: the item [p] ends with a text that ends with the bytes [r]; without them it is [p']. *)
Inductive loses : pv -> bytes -> pv -> Prop :=
| ls_text s r : r <> [] -> loses (PStr (s ++ r)) r (PStr s)
| ls_list l l' r : last_loses l r l' -> loses (PList l) r (PList l')
| ls_map m m' r : value_loses m r m' -> loses (PMap m) r (PMap m')
| ls_struct sig fs fs' r : last_loses fs r fs' -> loses (PStruct sig fs) r (PStruct sig fs')
with last_loses : list pv -> bytes -> list pv -> Prop :=
| ll_last p p' r : loses p r p' -> last_loses [p] r [p']
| ll_more x l l' r : last_loses l r l' -> last_loses (x :: l) r (x :: l')
with value_loses : list (bytes * pv) -> bytes -> list (bytes * pv) -> Prop :=
| vl_last k p p' r : loses p r p' -> value_loses [(k, p)] r [(k, p')]
| vl_more kx m m' r : value_loses m r m' -> value_loses (kx :: m) r (kx :: m').
Scheme loses_mut := Induction for loses Sort Prop
with last_loses_mut := Induction for last_loses Sort Prop
with value_loses_mut := Induction for value_loses Sort Prop.
Combined Scheme loses_all_ind from loses_mut, last_loses_mut, value_loses_mut.
