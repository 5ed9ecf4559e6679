(** * A script in the manner of the one in the project's README *)
From Coq Require Import List ZArith Bool.
Import ListNotations.
From Verif Require Import Num Vec Handlers Material Run Default SpecMech SpecElem.

Section Script.
  Context {F : Type} `{NF : Num F}.

  (** README.md:24-43: nodes, elements without properties, one material and one
      cross section for all of them, supports, loads; no setting is changed.
      [els] are labels with the two nodes joined. *)
  Definition readme_script (log : Z) (ns : list (Z * v3 F)) (els : list (Z * (Z * Z))) (mprop gprop : list (pynum F))
      (bs : list (Z * list Z)) (fs : list (Z * list F)) : res (model F) :=
    e1 <- foldM (fun h p => E <- mk_element (fst p) (snd p) 1 1 None None None None ;; add_element h E) els None ;;
    e2 <- assign_material e1 All mprop None ;;
    e3 <- assign_geometry e2 All gprop ;;
    b <- add_bounds_U None bs ;;
    f <- add_forces None fs ;;
    Ok (Model (add_nodes None ns) e3 b f (new_settings log) None).

  (** The bars meant: linear elastic, all with the same properties. *)
  Definition readme_bars (els : list (Z * (Z * Z))) (mprop gprop : list (pynum F)) : list (member F) :=
    map (fun p => Mb (fst p) (fst (snd p)) (snd (snd p)) UmatEl (map (as_stored false) mprop) (map (as_stored false) gprop)) els.

  (** What the getters of an element table say about a bar. *)
  Definition read_back (h : elemH F) (b : member F) : Prop :=
    get_nodes h (mb_label b) = Ok (mb_a b, mb_b b) /\ get_material_type h (mb_label b) = Ok (law_code (mb_law b)) /\
    get_material_properties h (mb_label b) = Ok (mb_mat b) /\ get_geometric_properties h (mb_label b) = Ok (mb_geo b).
End Script.
