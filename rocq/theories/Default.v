(** * A new model (src/trusspy/model.py:71-124, handlers/handler_settings.py) *)
From Coq Require Import List ZArith Bool.
Import ListNotations.
From Verif Require Import Num Vec Handlers Run.

Section Default.
  Context {F : Type} `{NF : Num F}.
  Local Open Scope num_scope.

  (** The decimal fraction a/b; in double precision the correctly rounded quotient of
      the two integers is the number the literal stands for. *)
  Definition dec (a b : Z) : F := fofZ a / fofZ b.

  (** handler_settings.py:12-54 [SettingsHandler()] with model.py:124
      [self.Settings.log = log].  The attributes [ndim] (3, see Vec.v) and [lpf] (never
      read) are left out; [None] as limit stands for np.inf. *)
  Definition new_settings (log : Z) : settings F :=
    Settings (Same 50%Z) false (fofZ 10) (dec 1 1000000) (dec 5 10) (fofZ 8)
             (dec 1000001 1000000) 8%Z 8%Z 4%Z 8%Z (dec 2 100) (dec 2 100)
             (Same (0%Z, None)) log None true false 0%Z 1%Z.

  (** model.py:119-124: empty handlers.  The printed header and the log file are in
      Logfile.v. *)
  Definition new_model (log : Z) : model F := Model None None None None (new_settings log) None.
End Default.
