(** Property theorems C06, C07, C08 (parameters and their default values).
    [strtod] (with rounding to the element type) is universally quantified. *)
From Coq Require Import String Ascii List ZArith QArith Lia.
From Verif Require Import CStr_Model CNum_Model Dim_Model Var_Model Var_Spec Param_Model Param_Spec
  Param_Proofs.
Import ListNotations.
Local Open Scope string_scope.
Local Open Scope list_scope.
Local Open Scope Z_scope.

(** C07: a value string whose tokens stand for the nonempty sequence [L] fills exactly the
    requested number of cells with [L] repeated cyclically (a prefix of [L] when [L] is
    longer), for any conversion function. *)
Theorem C07_expansion : forall V (conv : string -> option V) s size L, 0 <= size ->
  Fits conv size (strtok is_valsep s) ->
  Expand conv (strtok is_valsep s) L -> (L <> [] \/ size = 0) ->
  exists l, str_to_vals conv s size = Ret (Some l) /\ Cyclic L size l.
Proof. exact @str_to_vals_ok. Qed.
Print Assumptions C07_expansion.

(** C07: a token with an illegal repeat count or a value the conversion reports as out of
    range makes the whole string refused. *)
Theorem C07_refused : forall V (conv : string -> option V) s size, 0 <= size ->
  Fits conv size (strtok is_valsep s) ->
  (exists t, In t (strtok is_valsep s) /\ forall n v, ~ Item conv t n v) ->
  str_to_vals conv s size = Ret None.
Proof. exact @str_to_vals_bad. Qed.
Print Assumptions C07_refused.

(** C07, refuted part: tokens that are not numbers are not refused (the end pointer of the
    conversion is not checked): "abc" and "2*" are read as zeros. *)
Theorem C07_malformed_refuted :
  str_to_vals conv_long "abc" 2 = Ret (Some [0; 0]) /\
  str_to_vals conv_long "7x,2*" 3 = Ret (Some [7; 0; 0]).
Proof. split; reflexivity. Qed.
Print Assumptions C07_malformed_refuted.

(** C07, refuted part: a string without tokens leaves the array uninitialised (and
    undefined), and a token of 128 or more characters overruns the token buffer. *)
Theorem C07_empty_refuted : str_to_vals conv_long " ," 1 = UB /\
  exists s, strtok is_valsep s = [s] /\ String.length s = 128%nat /\ str_to_vals conv_long s 1 = UB.
Proof.
  split; [reflexivity|].
  exists (String.concat "" (List.repeat "1" 128)). vm_compute; auto.
Qed.
Print Assumptions C07_empty_refuted.

Example C07_nonvacuous : Expand conv_long (strtok is_valsep "2*15, -3") [15; 15; -3] /\
  Fits conv_long 5 (strtok is_valsep "2*15, -3") /\
  str_to_vals conv_long "2*15, -3" 5 = Ret (Some [15; 15; -3; 15; 15]) /\
  str_to_vals conv_long "2*15, -3" 1 = Ret (Some [15]) /\
  str_to_vals conv_long "0*15, -3" 1 = Ret None.
Proof.
  change (strtok is_valsep "2*15, -3") with ["2*15"; "-3"].
  assert (N : forall s, split_last "*"%char s = None -> ~ HasStar s) by (intros s; apply split_last_none).
  assert (I1 : Item conv_long "2*15" 2 15)
    by (apply (Times conv_long "2" "15"); [apply N; reflexivity|reflexivity|lia|reflexivity]).
  assert (I2 : Item conv_long "-3" 1 (-3)) by (constructor; [apply N; reflexivity|reflexivity]).
  split; [|split; [split|]].
  - apply (ExpandCons _ _ _ 2 15 [-3]); auto. apply (ExpandCons _ _ _ 1 (-3) []); auto. constructor.
  - intros t [<-|[<-|[]]]; cbn; lia.
  - intros t n v [<-|[<-|[]]] I.
    + destruct (item_fun _ _ _ _ _ _ I1 I); lia.
    + destruct (item_fun _ _ _ _ _ _ I2 I); lia.
  - vm_compute; auto.
Qed.

(** C08: with decodable bounds and default, initialising a parameter returns 0 exactly when
    minimum <= default <= maximum element by element, 1 otherwise, and every element gets
    the default; a bounded parameter has limits 0 and the value of its bounding dimension. *)
Theorem C08_bounds : forall strtod t size b s mn mx df, 0 <= size ->
  match b with
  | Strings smin smax => Decodes strtod t size smin mn /\ Decodes strtod t size smax mx
  | ByDim v => mn = repeat (inject_Z 0) (Z.to_nat size) /\ mx = repeat (inject_Z v) (Z.to_nat size)
  end -> Decodes strtod t size s df ->
  exists code, load_param strtod t size b s = Ret (code, Some (mkarr mn mx df df)) /\
   (code = 0 \/ code = 1) /\ (code = 0 <-> Within mn df mx).
Proof. exact load_param_ok. Qed.
Print Assumptions C08_bounds.

(** C08: success implies all of it, whatever the strings. *)
Theorem C08_success : forall strtod t size b s a, 0 <= size ->
  load_param strtod t size b s = Ret (0, Some a) ->
  a_value a = a_def a /\ Z.of_nat (length (a_value a)) = size /\
  Within (a_min a) (a_value a) (a_max a) /\ Decodes strtod t size s (a_value a).
Proof. exact load_param_within. Qed.
Print Assumptions C08_success.

Definition no_real : vtype -> string -> option Q := fun _ _ => None.
Example C08_nonvacuous :
  Decodes no_real M_LONG 3 "0, 1" [0; 1; 0]%Q /\ Decodes no_real M_LONG 3 "9" [9; 9; 9]%Q /\
  Decodes no_real M_LONG 3 "2*4,9" [4; 4; 9]%Q /\
  load_param no_real M_LONG 3 (Strings "0, 1" "9") "2*4,9"
    = Ret (0, Some (mkarr [0; 1; 0] [9; 9; 9] [4; 4; 9] [4; 4; 9])%Q) /\
  load_param no_real M_LONG 3 (ByDim 8) "2*4,9"
    = Ret (1, Some (mkarr [0; 0; 0] [8; 8; 8] [4; 4; 9] [4; 4; 9])%Q).
Proof. repeat split; reflexivity. Qed.

(** C06: after every history that runs without undefined behaviour, the first declaration of
    each name (with a legal type name) determines what is found under that name; when that
    declaration returned 0, the size is the product of the dimension values (1 if that is
    0), the values are the decoded defaults and lie inside the bounds; later declarations
    of the same name and declarations of other names, refused or not, change nothing; other
    names are not found. *)
Theorem C06_registry : forall strtod h db codes, run_pcalls strtod [] h = Ret (db, codes) ->
  (forall i c code, nth_error h i = Some c -> nth_error codes i = Some code ->
     LegalType (q_type c) ->
     (forall c', In c' (firstn i h) -> q_name c' = q_name c -> ~ LegalType (q_type c')) ->
     exists p, param_addr db (q_name c) = Some p /\ Comes strtod p c code) /\
  (forall key, (forall c, In c h -> q_name c = key -> ~ LegalType (q_type c)) ->
     param_addr db key = None).
Proof. exact registry_legal. Qed.
Print Assumptions C06_registry.

Definition p_dims : dimdb := [mkdim "nac" 2 50 false; mkdim "nmru" 3 500 false; mkdim "one" 1 1 false].

(** C06, refuted: a declaration with an undeclared dimension is not refused cleanly but
    dereferences NULL (declparam.c:465). *)
Theorem C06_undeclared_dimension_refuted :
  run_pcalls no_real [] [mkpcall p_dims "m" "a" "nosuch" "integer" "1" "0" "2"] = UB.
Proof. reflexivity. Qed.
Print Assumptions C06_undeclared_dimension_refuted.

(** C06, refuted: a refused declaration (default out of range) leaves the parameter
    registered with the refused values, and a later correct declaration of the same name
    reports success without replacing them. *)
Theorem C06_refused_stays_refuted : exists db p,
  run_pcalls no_real [] [mkpcall p_dims "m" "a" "one" "integer" "5" "0" "2";
                         mkpcall p_dims "m" "a" "one" "integer" "1" "0" "2"] = Ret (db, [1; 0]) /\
  param_addr db "a" = Some p /\ p_data p = Some (mkarr [0] [2] [5] [5])%Q.
Proof. eexists _, _; split; [vm_compute; reflexivity|]. split; reflexivity. Qed.
Print Assumptions C06_refused_stays_refuted.

(** C06, refuted: an illegal type name is reported as success. *)
Theorem C06_illegal_type_refuted :
  run_pcalls no_real [] [mkpcall p_dims "m" "a" "one" "string" "5" "0" "2"] = Ret ([], [0]).
Proof. reflexivity. Qed.
Print Assumptions C06_illegal_type_refuted.

Example C06_nonvacuous : exists db,
  run_pcalls no_real []
   [mkpcall p_dims "m" "z" "nac,nmru" "integer" "1,2" "0" "9";
    mkpcall p_dims "m" "bad" "one" "integer" "5" "0" "2";
    mkpcall p_dims "m" "b" "nmru" "long" "1" "bounded" "nac";
    mkpcall p_dims "n" "z" "one" "integer" "3" "0" "9"] = Ret (db, [0; 1; 0; 0]) /\
  map p_key db = ["b"; "bad"; "z"] /\
  option_map p_data (param_addr db "z") =
    Some (Some (mkarr [0;0;0;0;0;0] [9;9;9;9;9;9] [1;2;1;2;1;2] [1;2;1;2;1;2])%Q).
Proof. eexists; split; [vm_compute; reflexivity|]. vm_compute; auto. Qed.
