From Coq Require Import ZArith Bool List String Ascii Lia FinFun.
From Coq Require Import ZifyBool.
From Verif Require Import Run_Model Run_Spec.
Import ListNotations.
Local Open Scope string_scope.
Local Open Scope list_scope.
Local Open Scope Z_scope.
Notation len := List.length.

Section P.
Variable behave : history -> Z.

Lemma followed_nil h : followed behave h [] h 0.
Proof. exists O. cbn. rewrite app_nil_r. split; [reflexivity|]. split; [lia|]. split; [lia|]. left. split; [reflexivity|]. split; [reflexivity | lia]. Qed.

Lemma followed_fail h p q got ret : followed behave h p got ret -> ret <> 0 -> followed behave h (p ++ q) got ret.
Proof.
  intros (k & G & L & B & [(R & _) | (R & K & E)]) N; [contradiction|]. exists k.
  assert (F : forall i, (i <= k)%nat -> firstn i (p ++ q) = firstn i p)
    by (intros i I; rewrite firstn_app; replace (i - len p)%nat with O by lia; cbn; apply app_nil_r).
  rewrite F by lia. split; [exact G|]. split; [rewrite app_length; lia|].
  split; [intros i I; rewrite F by lia; apply B; exact I|]. right. auto.
Qed.
Lemma followed_app h p q got got2 ret : followed behave h p got 0 -> followed behave got q got2 ret ->
  followed behave h (p ++ q) got2 ret.
Proof.
  intros (k & G & L & B & [(R & K & E) | (R & _)]) (j & G2 & L2 & B2 & C); [|contradiction].
  subst k. rewrite firstn_all in G.
  assert (F : forall i, (len p <= i)%nat -> h ++ firstn i (p ++ q) = got ++ firstn (i - len p) q).
  { intros i I. rewrite firstn_app, firstn_all2 by lia. rewrite G, app_assoc. reflexivity. }
  assert (F1 : forall i, (i <= len p)%nat -> firstn i (p ++ q) = firstn i p).
  { intros i I. rewrite firstn_app. replace (i - len p)%nat with O by lia. cbn. apply app_nil_r. }
  exists (len p + j)%nat. split; [rewrite F by lia; rewrite G2; f_equal; f_equal; lia|].
  split; [rewrite app_length; lia|]. split.
  - intros i I. destruct (Nat.ltb_spec i (len p)); [rewrite F1 by lia; apply B; lia|].
    destruct (Nat.eq_dec i (len p)) as [-> | NE].
    + rewrite F1 by lia. rewrite firstn_all, <- G. apply E. lia.
    + rewrite F by lia. apply B2. lia.
  - destruct C as [(C1 & C2 & C3) | (C1 & C2 & C3)].
    + left. split; [exact C1|]. split; [rewrite app_length; lia|]. intros P.
      destruct (Nat.eq_dec j 0) as [-> | NJ]; [|apply C3; lia].
      rewrite G2. cbn. rewrite app_nil_r. apply E. lia.
    + right. split; [exact C1|]. split; [lia | exact C3].
Qed.

Lemma sequence_follows arg ms : forall h, 
  followed behave h (map (fun m => (arg, m)) ms) (fst (sequence behave arg ms h)) (snd (sequence behave arg ms h)).
Proof.
  induction ms as [|m r IH]; intros h; cbn [sequence map]; [apply followed_nil|].
  set (h' := h ++ [(arg, m)]). destruct (behave h' =? 0) eqn:E; cbn [negb fst snd].
  - change ((arg, m) :: map (fun m0 => (arg, m0)) r) with ([(arg, m)] ++ map (fun m0 => (arg, m0)) r).
    apply followed_app with h'; [|apply IH]. exists 1%nat. cbn. split; [reflexivity|]. split; [lia|]. split; [lia|].
    left. split; [reflexivity|]. split; [reflexivity | intros; fold h'; lia].
  - exists 1%nat. cbn [firstn List.length]. split; [reflexivity|]. split; [lia|]. split; [lia|]. right. split; [lia|]. split; [lia | reflexivity].
Qed.

Lemma call_follows mode model arg h : arg <> "declare" -> model <> 99 ->
  let '(m, h', ret) := call_modules behave mode model arg h in m = model /\ followed behave h (phase arg) h' ret.
Proof.
  intros A N. unfold call_modules. replace (String.eqb arg "declare") with false by (symmetry; apply String.eqb_neq; exact A).
  cbn [andb]. replace (model =? 99) with false by lia.
  pose proof (sequence_follows arg order h) as F. destruct (sequence behave arg order h) as [h' ret].
  split; [reflexivity | exact F].
Qed.

Lemma loop_follows mode model recs : model <> 99 -> forall h,
  let '(h', ok) := run_loop behave mode model recs h in
  exists ret, followed behave h (List.concat (repeat (phase "run") (accepted recs))) h' ret /\
    (ok = true <-> ret = 0 /\ prepared recs = true).
Proof.
  intros N. induction recs as [|[code pre] r IH]; intros h; cbn [run_loop accepted prepared].
  - exists 0. split; [apply followed_nil | tauto].
  - destruct (code =? 0); cbn [andb]; [|exists 0; split; [apply followed_nil | tauto]].
    destruct pre; cbn [andb]; [|exists 0; split; [apply followed_nil|]; intuition discriminate].
    pose proof (call_follows mode model "run" h ltac:(discriminate) N) as C.
    destruct (call_modules behave mode model "run" h) as [[m h'] ret]. destruct C as [_ C].
    destruct (ret =? 0) eqn:E; cbn [negb].
    + specialize (IH h'). destruct (run_loop behave mode model r h') as [h2 ok]. destruct IH as (ret2 & F & O).
      exists ret2. split; [|exact O]. cbn [repeat List.concat]. eapply followed_app; [|exact F].
      replace ret with 0 in C by lia. exact C.
    + exists ret. split; [cbn [repeat List.concat]; apply followed_fail; [exact C | lia]|]. intuition (try discriminate; lia).
Qed.

Lemma batch_follows mode model recs h : model <> 99 ->
  let '(h', ok) := batch_run behave mode model true recs h in
  exists ret, followed behave h (life (accepted recs) ++ (if prepared recs then phase "cleanup" else [])) h' ret /\
    (ok = true <-> ret = 0 /\ prepared recs = true).
Proof.
  intros N. unfold batch_run, life. cbn [negb].
  pose proof (call_follows mode model "initialize" h ltac:(discriminate) N) as C.
  destruct (call_modules behave mode model "initialize" h) as [[m h1] ret]. destruct C as [_ C].
  destruct (ret =? 0) eqn:E; cbn [negb].
  2:{ exists ret. split; [apply followed_fail; [apply followed_fail; [exact C | lia] | lia]|]. intuition (try discriminate; lia). }
  replace ret with 0 in C by lia.
  pose proof (loop_follows mode model recs N h1) as L. destruct (run_loop behave mode model recs h1) as [h2 ok].
  destruct L as (r2 & L & O). pose proof (followed_app _ _ _ _ _ _ C L) as CL.
  destruct ok; cbn [negb].
  - destruct (proj1 O eq_refl) as [-> PR]. rewrite PR.
    pose proof (call_follows mode model "cleanup" h2 ltac:(discriminate) N) as D.
    destruct (call_modules behave mode model "cleanup" h2) as [[m3 h3] ret3]. destruct D as [_ D].
    destruct (ret3 =? 0) eqn:E3; cbn [negb]; exists ret3; (split; [eapply followed_app; [exact CL | exact D]|]).
    + split; [intros _; split; [lia | reflexivity] | reflexivity].
    + intuition (try discriminate; lia).
  - destruct (prepared recs).
    + assert (r2 <> 0) by (intros ->; destruct O as [_ O]; discriminate (O (conj eq_refl eq_refl))).
      exists r2. split; [apply followed_fail; assumption|]. intuition discriminate.
    + exists r2. rewrite app_nil_r. split; [exact CL|]. intuition discriminate.
Qed.
End P.

(** ** Modes *)
Lemma starts_prefix lit : forall n s, (String.length lit <= n)%nat -> ~ In "000"%char (list_ascii_of_string lit) ->
  starts (fstring n s) lit = prefix lit s.
Proof.
  unfold starts. induction lit as [|c l IH]; intros n s L N.
  - destruct n, s; reflexivity.
  - cbn [String.length] in *. destruct n as [|n]; [lia|]. destruct s as [|d s].
    + cbn [fstring firstn string_of_list_ascii prefix]. cbn [String.eqb].
      destruct (Ascii.eqb_spec "000"%char c) as [<-|_]; [exfalso; apply N; left; reflexivity | reflexivity].
    + cbn [fstring firstn string_of_list_ascii prefix]. cbn [String.eqb].
      destruct (ascii_dec c d) as [->|NE].
      * rewrite Ascii.eqb_refl. apply IH; [lia|]. intros I. apply N. right. exact I.
      * destruct (Ascii.eqb_spec d c); [congruence | reflexivity].
Qed.

Lemma blank_spec n s : (1 <= n)%nat -> blank (fstring n s) = true <->
  (n <= String.length s)%nat /\ forallb (fun c => Ascii.eqb c " "%char) (firstn n (list_ascii_of_string s)) = true.
Proof.
  unfold blank. revert s. induction n as [|n IH]; intros s L; [lia|].
  destruct s as [|c r]; cbn [fstring forallb String.length list_ascii_of_string firstn].
  - split; [discriminate | lia].
  - rewrite !andb_true_iff. destruct n as [|n].
    + cbn. split; [intros [A _]; split; [lia | auto] | intros [_ [A _]]; auto].
    + rewrite IH by lia. split; [intros [A [B C]] | intros [A [B C]]]; repeat split; auto; lia.
Qed.

Lemma model_of_known s : model_of s = -1 <->
  prefix "DAILY" s = false /\ prefix "STORM" s = false /\ prefix "TRENT" s = false /\
  prefix "CFGI" s = false /\ prefix "_name" s = false /\ blank (fstring 9 s) = false.
Proof.
  unfold model_of. cbv zeta.
  rewrite !starts_prefix; try (cbn; lia); try (cbn; intuition discriminate).
  destruct (prefix "DAILY" s), (blank (fstring 9 s)), (prefix "STORM" s), (prefix "TRENT" s), (prefix "CFGI" s), (prefix "_name" s);
  cbn; intuition discriminate.
Qed.

Lemma prefix_first c p s : prefix (String c p) s = true -> exists r, s = String c r.
Proof. destruct s as [|d r]; cbn; [discriminate|]. destruct (ascii_dec c d); [subst; eauto | discriminate]. Qed.

Lemma not_blank c p s : prefix (String c p) s = true -> c <> " "%char -> blank (fstring 9 s) = false.
Proof.
  intros P N. apply prefix_first in P. destruct P as [r ->]. unfold blank. cbn [fstring forallb].
  destruct (Ascii.eqb_spec c " "); [contradiction | reflexivity].
Qed.

Lemma modes_val s : 
  (prefix "DAILY" s = true -> model_of s = 1) /\ (prefix "STORM" s = true -> model_of s = 2) /\
  (prefix "TRENT" s = true -> model_of s = 3) /\ (prefix "CFGI" s = true -> model_of s = 4) /\
  (prefix "_name" s = true -> model_of s = 99).
Proof.
  unfold model_of. cbv zeta.
  rewrite !starts_prefix; try (cbn; lia); try (cbn; intuition discriminate).
  assert (X : forall c p c' p', prefix (String c p) s = true -> c <> c' -> prefix (String c' p') s = false).
  { intros c p c' p' P N. apply prefix_first in P. destruct P as [r ->]. cbn. destruct (ascii_dec c' c); congruence. }
  split; [intros ->; reflexivity|].
  split; [|split; [|split]]; intros P; rewrite (not_blank _ _ _ P) by discriminate; rewrite P;
    try rewrite (X _ _ "D"%char "AILY" P) by discriminate;
    try rewrite (X _ _ "S"%char "TORM" P) by discriminate;
    try rewrite (X _ _ "T"%char "RENT" P) by discriminate;
    try rewrite (X _ _ "C"%char "FGI" P) by discriminate; reflexivity.
Qed.

Lemma blank_get n s : (n <= String.length s)%nat ->
  forallb (fun c => Ascii.eqb c " "%char) (firstn n (list_ascii_of_string s)) = true <->
  forall i, (i < n)%nat -> get i s = Some " "%char.
Proof.
  revert s. induction n as [|n IH]; intros s L; [cbn; split; [lia | reflexivity]|].
  destruct s as [|c r]; cbn [String.length] in L; [lia|].
  cbn [list_ascii_of_string firstn forallb]. rewrite andb_true_iff, IH by lia.
  destruct (Ascii.eqb_spec c " "%char) as [->|N].
  - split; [intros [_ A] [|i] I; cbn; [reflexivity | apply A; lia]|].
    intros A. split; [reflexivity|]. intros i I. apply (A (Datatypes.S i)). lia.
  - split; [intros [D _]; discriminate|]. intros A. specialize (A O ltac:(lia)). cbn in A. congruence.
Qed.

Lemma modes s :
  (prefix "DAILY" s = true -> model_of s = 1) /\ (prefix "STORM" s = true -> model_of s = 2) /\
  (prefix "TRENT" s = true -> model_of s = 3) /\ (prefix "CFGI" s = true -> model_of s = 4) /\
  (prefix "_name" s = true -> model_of s = 99) /\
  (model_of s = -1 <-> ~ known_mode s /\ prefix "_name" s = false /\
     ~ ((9 <= String.length s)%nat /\ forall i, (i < 9)%nat -> get i s = Some " "%char)).
Proof.
  destruct (modes_val s) as (A & B & C & D & F). do 5 (split; [assumption|]). clear A B C D F.
  rewrite model_of_known. pose proof (blank_spec 9 s ltac:(lia)) as BL.
  assert (BG : blank (fstring 9 s) = false <-> ~ ((9 <= String.length s)%nat /\ forall i, (i < 9)%nat -> get i s = Some " "%char)).
  { rewrite <- not_true_iff_false. rewrite BL. split; intros H [I J]; apply H; (split; [exact I|]); apply (blank_get 9); auto. }
  rewrite BG. unfold known_mode. split.
  - intros (A & B & C & D & F & G). split; [|split; assumption]. intros (p & I & P). cbn [In] in I.
    destruct I as [<-|[<-|[<-|[<-|[]]]]]; congruence.
  - intros (K & F & G).
    assert (Y : forall p, In p ["DAILY"; "STORM"; "TRENT"; "CFGI"] -> prefix p s = false).
    { intros p I. destruct (prefix p s) eqn:E; [exfalso; apply K; exists p; auto | reflexivity]. }
    cbn [In] in Y. split; [apply Y; tauto|]. split; [apply Y; tauto|]. split; [apply Y; tauto|]. split; [apply Y; tauto|]. auto.
Qed.

Lemma declare_follows behave mode model h : known_mode mode ->
  let '(m, h', ret) := call_modules behave mode model "declare" h in
  In m [1; 2; 3; 4] /\ followed behave h (phase "declare") h' ret.
Proof.
  intros (p & I & P). destruct (modes_val mode) as (A & B & C & D & _).
  assert (M : In (model_of mode) [1; 2; 3; 4]).
  { cbn [In] in I |- *. destruct I as [<-|[<-|[<-|[<-|[]]]]]; [rewrite (A P) | rewrite (B P) | rewrite (C P) | rewrite (D P)]; tauto. }
  unfold call_modules. replace (String.eqb "declare" "declare") with true by reflexivity. cbn [andb].
  replace (model_of mode =? -1) with false by (cbn [In] in M; lia).
  replace (model_of mode =? 99) with false by (cbn [In] in M; lia).
  pose proof (sequence_follows behave "declare" order h) as F. destruct (sequence behave "declare" order h) as [h' ret].
  split; [exact M | exact F].
Qed.
Lemma phase_nodup arg : NoDup (phase arg).
Proof.
  unfold phase. apply FinFun.Injective_map_NoDup; [intros a b; congruence|].
  unfold published. repeat (constructor; [cbn [In]; intuition discriminate|]). constructor.
Qed.
Lemma unknown_declares_nothing behave mode model h : model_of mode = -1 ->
  call_modules behave mode model "declare" h = (-1, h, 0).
Proof. intros E. unfold call_modules. rewrite E. reflexivity. Qed.
Lemma name_mode behave mode h : prefix "_name" mode = true ->
  (forall model, call_modules behave mode model "declare" h = (99, h ++ phase "declare", 0)) /\
  (forall arg, arg <> "declare" -> call_modules behave mode 99 arg h = (99, h, 1)).
Proof.
  intros P. destruct (modes_val mode) as (_ & _ & _ & _ & F). specialize (F P). unfold call_modules. split.
  - intros model. rewrite F. reflexivity.
  - intros arg A. replace (String.eqb arg "declare") with false by (symmetry; apply String.eqb_neq; exact A). reflexivity.
Qed.

Lemma followed_ok behave h plan got ret : (forall x, behave x = 0) -> followed behave h plan got ret ->
  ret = 0 /\ got = h ++ plan.
Proof.
  intros Z0 (k & G & L & B & [(R & K & E) | (R & K & E)]).
  - split; [exact R|]. rewrite G, K, firstn_all. reflexivity.
  - rewrite Z0 in E. congruence.
Qed.
Lemma batch_all_ok behave mode model recs h : (forall x, behave x = 0) -> model <> 99 -> prepared recs = true ->
  batch_run behave mode model true recs h = (h ++ life (accepted recs) ++ phase "cleanup", true).
Proof.
  intros Z0 M PR. pose proof (batch_follows behave mode model recs h M) as B.
  destruct (batch_run behave mode model true recs h) as [h' ok]. destruct B as (ret & F & O).
  rewrite PR in F, O. destruct (followed_ok _ _ _ _ _ Z0 F) as [-> ->]. rewrite (proj2 O) by tauto. reflexivity.
Qed.
Lemma unknown_runs : exists mode, model_of mode = -1 /\
  forall behave, (forall h, behave h = 0) -> forall recs, prepared recs = true ->
    main_run behave mode true recs = (life (accepted recs) ++ phase "cleanup", true, 1).
Proof.
  exists "GSFLOW". split; [reflexivity|]. intros behave Z0 recs PR. unfold main_run.
  rewrite unknown_declares_nothing by reflexivity. rewrite batch_all_ok by (auto; discriminate). reflexivity.
Qed.

Lemma starts_cons lit c l : starts (c :: l) (String c lit) = starts l lit.
Proof. unfold starts. cbn [String.length firstn string_of_list_ascii String.eqb]. rewrite Ascii.eqb_refl. reflexivity. Qed.
Lemma precip_choice :
  (forall cfg, climate_dist_of cfg = 1) /\
  (forall cfg, prefix "xyz_dist_web" cfg = true -> starts (precip_of cfg) "precip_web" = true) /\
  (forall arg, In (arg, "precip_web") (phase arg) /\ ~ In (arg, "xyz_dist_web") (phase arg)) /\
  starts (precip_of "ide_dist") "ide_dist" = true.
Proof.
  split; [|split; [|split]].
  - intros cfg. unfold climate_dist_of, precip_of. cbv zeta.
    destruct (starts (fstring 32 cfg) "precip_web"); cbn [negb andb]; [reflexivity|].
    destruct (starts (fstring 32 cfg) "xyz_dist_web") eqn:E; cbn [negb andb]; [reflexivity|]. rewrite E. reflexivity.
  - intros cfg P. unfold precip_of. cbv zeta.
    rewrite (starts_prefix "xyz_dist_web") by (cbn; solve [lia | intuition discriminate]). rewrite P. rewrite andb_false_r. reflexivity.
  - intros arg. unfold phase. split.
    + apply in_map. unfold published. cbn [In]. tauto.
    + intros I. apply in_map_iff in I. destruct I as (x & E & I). assert (X : x = "xyz_dist_web") by congruence. subst x.
      unfold published in I. cbn [In] in I. intuition discriminate.
  - reflexivity.
Qed.

Lemma batch_success behave mode model recs h h' : model <> 99 ->
  batch_run behave mode model true recs h = (h', true) ->
  h' = h ++ phase "initialize" ++ List.concat (repeat (phase "run") (accepted recs)) ++ phase "cleanup".
Proof.
  intros M E. pose proof (batch_follows behave mode model recs h M) as B. rewrite E in B.
  destruct B as (ret & F & O). destruct (proj1 O eq_refl) as [-> PR]. rewrite PR in F.
  destruct F as (k & G & L & B & [(_ & K & _) | (R & _)]); [|contradiction].
  rewrite G, K, firstn_all. unfold life. rewrite <- app_assoc. reflexivity.
Qed.

Lemma count_map_phase a arg m : count_occ call_dec (phase arg) (a, m) =
  if string_dec arg a then count_occ string_dec published m else 0%nat.
Proof.
  unfold phase. induction published as [|x r IH]; cbn [map count_occ]; [destruct (string_dec arg a); reflexivity|].
  rewrite IH. destruct (call_dec (arg, x) (a, m)) as [E|E]; destruct (string_dec arg a) as [A|A]; destruct (string_dec x m) as [X|X]; congruence.
Qed.
Lemma count_published m : In m published -> count_occ string_dec published m = 1%nat.
Proof.
  intros I. apply NoDup_count_occ'; [|exact I].
  unfold published. repeat (constructor; [cbn [In]; intuition discriminate|]). constructor.
Qed.
Lemma count_runs a m n : count_occ call_dec (List.concat (repeat (phase "run") n)) (a, m) = (n * count_occ call_dec (phase "run") (a, m))%nat.
Proof. induction n as [|n IH]; [reflexivity|]. cbn [repeat List.concat]. rewrite count_occ_app, IH. rewrite Nat.mul_succ_l. apply Nat.add_comm. Qed.
Lemma life_counts n m : In m published ->
  count_occ call_dec (life n ++ phase "cleanup") ("initialize", m) = 1%nat /\
  count_occ call_dec (life n ++ phase "cleanup") ("run", m) = n /\
  count_occ call_dec (life n ++ phase "cleanup") ("cleanup", m) = 1%nat.
Proof.
  intros I. unfold life. rewrite !count_occ_app, !count_runs, !count_map_phase, (count_published m I).
  assert (D : forall a b (x y : nat), (if string_dec a b then x else y) = if String.eqb a b then x else y).
  { intros a b x y. destruct (string_dec a b) as [->|N]; [rewrite String.eqb_refl; reflexivity|].
    apply String.eqb_neq in N. rewrite N. reflexivity. }
  rewrite !D. cbn [String.eqb Ascii.eqb Bool.eqb]. lia.
Qed.
Lemma accepted_spec recs : (accepted recs <= len recs)%nat /\
  (forall i, (i < accepted recs)%nat -> nth_error recs i = Some (0, true)) /\
  nth_error recs (accepted recs) <> Some (0, true).
Proof.
  induction recs as [|[c p] r (A & B & C)]; cbn [accepted List.length]; [cbn; split; [lia|]; split; [lia | discriminate]|].
  destruct (Z.eqb_spec c 0) as [->|N]; cbn [andb].
  - destruct p; [|cbn; split; [lia|]; split; [lia | discriminate]].
    split; [lia|]. split; [|exact C]. intros [|i] I; [reflexivity | apply B; lia].
  - cbn. split; [lia|]. split; [lia | congruence].
Qed.
Lemma declare_failure : exists behave, snd (call_modules behave "DAILY" 0 "declare" []) = 7 /\
    main_run behave "DAILY" true [(0, true)] = ([("declare", "io")] ++ life 1 ++ phase "cleanup", true, 1).
Proof.
  exists (fun h => match h with [("declare", _)] => 7 | _ => 0 end). vm_compute. split; reflexivity.
Qed.
Lemma data_error behave : (forall h, behave h = 0) ->
  batch_run behave "DAILY" 1 true [(0, true); (100, true); (0, true)] [] = (life 1 ++ phase "cleanup", true).
Proof. intros Z0. apply (batch_all_ok behave "DAILY" 1 [(0, true); (100, true); (0, true)] [] Z0); [discriminate | reflexivity]. Qed.
Lemma exit_status behave mode pre recs : snd (main_run behave mode pre recs) = 1.
Proof.
  unfold main_run. destruct (call_modules behave mode 0 "declare" []) as [[m h] r].
  destruct (batch_run behave mode m pre recs h) as [h' ok]. reflexivity.
Qed.
