(** What the properties on the files of a run say, apart from the model. *)
From Coq Require Import String Ascii ZArith Bool List.
From Verif Require Import Anim_Model.
Import ListNotations.
Local Open Scope string_scope.
Local Open Scope list_scope.

(** Lines of fields. *)
Definition join (l : list string) : string := fold_right String.append "" l.
Definition line (l : list string) : string := (join l ++ newline)%string.

(** The text of a value in an animation file. *)
Definition shown (p : printers) (t : type_) (x : number) : string :=
  match t with Long => as_10ld p x | Float => as_e14 p x | Double => as_e10 p x | String_ => "" end.
Definition is_number (v : pubvar) : Prop := vtype v <> String_.
Definition is_real (v : pubvar) : Prop := vtype v = Float \/ vtype v = Double.

(** The animation file of dimension [d], with the variables [vs] that have it:
    a header, then at each moment a row for each index. *)
Definition file_header (d : string) (vs : list pubvar) : string :=
  join ([line ["#"]; line ["# Begin DBF"]; line ["# timestamp,#FIELD_ISODATETIME,19,0"];
         line ["# "; d; ",#FIELD_DECIMAL,10,2"]] ++
        map (fun v => line ["# "; vname v; ",#FIELD_DECIMAL,10,2"]) vs ++
        [line ["# End DBF"]; line ["#"];
         line ("timestamp" :: tab :: d :: flat_map (fun v => [tab; vname v]) vs);
         line ("19d" :: tab :: "10n" :: flat_map (fun _ => [tab; "10n"]) vs)]).
Definition row (p : printers) (m : moment) (vs : list pubvar) (j : nat) : string :=
  line (stamp m :: tab :: index p (S j) :: flat_map (fun v => [tab; shown p (vtype v) (values m (vname v) j)]) vs).
Definition file_text (p : printers) (d : string) (n : nat) (vs : list pubvar) (ms : list moment) : string :=
  (file_header d vs ++ join (map (fun m => join (map (row p m vs) (seq 0 n))) ms))%string.

(** The variables that have dimension [d] first. *)
Definition having (d : string) (vs : list pubvar) : list pubvar := filter (fun v => String.eqb (dim0 v) d) vs.

(** The text of a value in the file of statistics variables. *)
Definition written (p : printers) (t : type_) (x : number) : list string :=
  match t with Long => [as_ld p x; " "] | Float => [as_f p x; " "] | Double => [as_lf p x; " "] | String_ => [] end.

(** [full] is [key], or [key] followed by a point and more. *)
Definition names (full key : string) : Prop :=
  (forall a b, key <> (a ++ String "." b)%string) /\ (full = key \/ exists r, full = (key ++ String "." r)%string).
