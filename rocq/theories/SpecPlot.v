(** * Vocabulary for the properties of the plots *)
From Coq Require Import List ZArith Bool Arith String Ascii Sorting.Sorted Permutation.
Import ListNotations.
From Verif Require Import Num Vec Handlers Analysis Run Plot.

(** The quantities a user can ask for and the texts naming them. *)
Inductive axis := AxX | AxY | AxZ.
Inductive request := RDisp (d : axis) | RForce (d : axis) | RLpf | RState (k : nat).

Definition axis_letter (d : axis) : string := match d with AxX => "X" | AxY => "Y" | AxZ => "Z" end.
Definition digit (k : nat) : string :=
  String (ascii_of_nat (48 + k)) EmptyString.
Definition text (q : request) : string :=
  match q with
  | RDisp d => "Displacement " ++ axis_letter d
  | RForce d => "Force " ++ axis_letter d
  | RLpf => "LPF"
  | RState k => "State Variable " ++ digit k
  end.

Section Spec.
  Context {F : Type} `{NF : Num F}.

  Definition comp_of {A} (v : v3 A) (d : axis) : A := match d with AxX => vx v | AxY => vy v | AxZ => vz v end.

  (** The row of a table that belongs to a node. *)
  Definition at_node {A} (labels : list Z) (rows : list A) (n : Z) (x : A) : Prop :=
    exists p, nth_error labels p = Some n /\ nth_error rows p = Some x.

  (** [x] is the requested quantity at node [n] in the result [r]; state variable
      number k is entry k-1 of the state row at the *node's* position. *)
  Definition is_quantity (labels : list Z) (q : request) (n : Z) (r : analysis F) (x : F) : Prop :=
    match q with
    | RDisp d => exists v, at_node labels (a_U r) n v /\ x = comp_of v d
    | RForce d => exists v, at_node labels (a_r r) n v /\ x = comp_of v d
    | RLpf => x = a_lpf r
    | RState k => exists sv row, a_state r = Some sv /\ at_node labels sv n row /\ nth_error row (k - 1) = Some x
    end.

  (** State variables 1 to 9 can be named. *)
  Definition nameable (q : request) : Prop := match q with RState k => 1 <= k <= 9 | _ => True end.

  (** The numbers a, a+1, ..., a+n. *)
  Definition consecutive (path : list Z) : Prop :=
    exists a n, path = map (fun k => a + Z.of_nat k)%Z (seq 0 (S n)).

  (** Abscissae of a path plot: the labels of a range without gaps, otherwise
      0, 1, 2, ... *)
  Definition path_axis (is_range : bool) (path xd : list Z) : Prop :=
    (is_range = true /\ consecutive path) /\ xd = path \/
    ~ (is_range = true /\ consecutive path) /\ xd = map Z.of_nat (seq 0 (List.length path)).

  (** Coordinates shown by a view. *)
  Definition shown (v : view) (p : v3 F) : list F :=
    match v with
    | VXZ => [vx p; vz p]
    | VXY => [vx p; vy p]
    | VYZ => [vy p; vz p]
    | V3D => [vx p; vy p; vz p]
    | VOther => []
    end.

  (** Axes of a view. *)
  Definition sees (v : view) (d : axis) : Prop :=
    match v, d with
    | VXZ, (AxX | AxZ) | VXY, (AxX | AxY) | VYZ, (AxY | AxZ) | V3D, _ => True
    | _, _ => False
    end.
  (** The vector of length [x] along an axis. *)
  Definition along_ax (d : axis) (x : F) : v3 F :=
    match d with AxX => V3 x f0 f0 | AxY => V3 f0 x f0 | AxZ => V3 f0 f0 x end.
  Definition axis_num (d : axis) : nat := match d with AxX => 0 | AxY => 1 | AxZ => 2 end.

  (** The position of a node in a result: coordinates plus displacement. *)
  Definition deformed (labels : list Z) (coords : list (v3 F)) (r : analysis F) (n : Z) (p : v3 F) : Prop :=
    exists X U, at_node labels coords n X /\ at_node labels (a_U r) n U /\
      p = V3 (fadd (vx X) (vx U)) (fadd (vy X) (vy U)) (fadd (vz X) (vz U)).

  (** The result shown for a requested increment: counted from the end if
      negative. *)
  Definition shows (R : list (analysis F)) (inc : Z) (k : nat) (r : analysis F) : Prop :=
    nth_error R k = Some r /\
    ((0 <= inc)%Z /\ Z.of_nat k = inc \/ (inc < 0)%Z /\ (Z.of_nat k = Z.of_nat (List.length R) + inc)%Z).

  (** The load on a node in direction [d]: the constant forces plus the load
      factor (1 in the undeformed plot, k = 0) times the force table's columns of
      the result's step. *)
  Definition load_on (labels : list Z) (rows : list (list F)) (k : nat) (r : analysis F) (n : Z) (d : axis) (x : F) : Prop :=
    exists fc row, at_node labels (a_fconst r) n fc /\ at_node labels rows n row /\
      x = fadd (nth (axis_num d) fc f0)
               (fmul (if Nat.eqb k 0 then f1 else a_lpf r)
                     (nth (3 * Z.to_nat (a_step r - 1) + axis_num d) row f0)).

  (** The element values of a result by name. *)
  Definition named_values (name : string) (r : analysis F) (l : list F) : Prop :=
    name = "stretch"%string /\ l = a_stretch r \/ name = "force"%string /\ l = a_force r \/
    name = "stress"%string /\ l = a_stress r.

  (** Node labels 1, 2, ..., n. *)
  Definition counting (labels : list Z) : Prop := labels = map Z.of_nat (seq 1 (List.length labels)).
End Spec.

(** [os.listdir]: the names in some order. *)
Definition lists_all (listdir : list string -> list string) : Prop := forall l, Permutation (listdir l) l.
