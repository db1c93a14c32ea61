(** * Spec_conn: vocabulary for C10-C14. *)
From Verif Require Import Py.
From Coq Require Import Sorting.Sorted.

(** A simplicial mesh: every cell has dim+1 distinct nodes in range. *)
Record wf_mesh (dim nbnodes : Z) (cells : list (list Z)) : Prop := {
  wm_dim : dim = 2 \/ dim = 3;
  wm_rows : forall r, In r cells -> zlen r = dim + 1 /\ NoDup r /\ forall k, In k r -> 0 <= k < nbnodes }.

Definition cell (cells : list (list Z)) (c : Z) : list Z := nthZ [] cells c.
Definition iscell (cells : list (list Z)) (c : Z) : Prop := 0 <= c < zlen cells.

(** [F] (a set of nodes, written in increasing order) is a facet of the cell with nodes [r] *)
Definition facet_of (dim : Z) (F r : list Z) : Prop := StronglySorted Z.lt F /\ zlen F = dim /\ incl F r.
(** cell c has facet F *)
Definition has_facet (dim : Z) (cells : list (list Z)) (c : Z) (F : list Z) : Prop := iscell cells c /\ facet_of dim F (cell cells c).
(** conforming: a facet belongs to at most two cells *)
Definition conforming (dim : Z) (cells : list (list Z)) : Prop :=
  forall F a b c, has_facet dim cells a F -> has_facet dim cells b F -> has_facet dim cells c F -> a = b \/ b = c \/ a = c.
(** the local facets of a cell, in the code's order *)
Definition local_facets (dim : Z) (r : list Z) : list (list Z) :=
  let n k := nthZ 0 r k in
  if dim =? 2 then [[n 0; n 1]; [n 1; n 2]; [n 2; n 0]]
  else [[n 0; n 1; n 2]; [n 2; n 3; n 0]; [n 0; n 1; n 3]; [n 3; n 1; n 2]].
