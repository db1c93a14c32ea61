(** * Spec_label: vocabulary for C09, C15, C16. *)
From Verif Require Import Py Model_label.

(** labels of the facets touching node n, in file order *)
Definition touching (facets : list (list Z)) (labels : list Z) (n : Z) : list Z :=
  map snd (filter (fun fl => mem n (fst fl)) (combine facets labels)).
Definition last_opt (l : list Z) : option Z := match rev l with [] => None | x :: _ => Some x end.
(** the precedence rule *)
Definition precedence (ls : list Z) : Z :=
  match last_opt (filter (fun l => (l =? 1) || (l =? 2)) ls) with
  | Some l => l
  | None => match last_opt (filter (fun l => (l =? 3) || (l =? 4)) ls) with
            | Some l => l
            | None => match filter (fun l => negb (l =? 0)) ls with l :: _ => l | [] => 0 end
            end
  end.
(** periodic directions *)
Definition periodic_label (perx pery perz : bool) (l : Z) : Z :=
  match l with
  | 1 => if perx then 11 else 1 | 2 => if perx then 22 else 2
  | 3 => if pery then 33 else 3 | 4 => if pery then 44 else 4
  | 5 => if perz then 55 else 5 | 6 => if perz then 66 else 6
  | _ => l
  end.
(** all the face categories of a domain *)
Definition categories (fl : facelists) : list (list Z) :=
  [fl_inner fl; fl_halo fl; fl_in fl; fl_out fl; fl_upper fl; fl_bottom fl; fl_front fl; fl_back fl;
   fl_pin fl; fl_pout fl; fl_pupper fl; fl_pbottom fl; fl_pfront fl; fl_pback fl].
(** number of categories containing face i *)
Definition categories_of (fl : facelists) (i : Z) : nat := length (filter (mem i) (categories fl)).
(** the labels with a category *)
Definition known_labels (dim : Z) : list Z :=
  [0; 10; 1; 2; 3; 4; 11; 22; 33; 44] ++ (if dim =? 3 then [5; 6; 55; 66] else []).
