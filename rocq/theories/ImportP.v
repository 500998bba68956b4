(** * Proofs: importing a file *)
From Verif Require Import SpecImport Import SpecFile TextSolveP TextPresolveP.
From Coq Require Import Ascii Lia Bool.
Local Open Scope string_scope.
Local Open Scope list_scope.

Local Notation "a ++ b" := (String.append a b) : string_scope.
Fixpoint has_char (c : ascii) (s : string) : bool := match s with EmptyString => false | String x s' => Ascii.eqb x c || has_char c s' end.
Lemma has_char_in c s : has_char c s = true <-> In c (list_ascii_of_string s).
Proof.
  induction s as [|x s IH]; cbn; [split; [discriminate|intros []]|]. rewrite orb_true_iff, IH, Ascii.eqb_eq. reflexivity.
Qed.
Lemma no_slash_char s : no_slash s <-> has_char "/" s = false.
Proof. unfold no_slash. rewrite <- has_char_in. now destruct (has_char "/" s). Qed.
Lemma has_char_app c a b : has_char c (a ++ b)%string = has_char c a || has_char c b.
Proof. induction a as [|x a IH]; cbn; [reflexivity|]. now rewrite IH, orb_assoc. Qed.
Lemma app_assoc_s (a b c : string) : (a ++ (b ++ c))%string = ((a ++ b) ++ c)%string.
Proof. induction a as [|x a IH]; cbn; [reflexivity|now rewrite IH]. Qed.
Lemma app_nil_s (a : string) : (a ++ "")%string = a. Proof. induction a as [|x a IH]; cbn; [reflexivity|now rewrite IH]. Qed.

(** ** Splitting *)
Lemma split_not_nil c s : split_at c s <> [].
Proof. destruct s as [|x s]; cbn; [discriminate|]. destruct (Ascii.eqb x c); [discriminate|]. now destruct (split_at c s). Qed.
Lemma split_app c a b : split_at c (a ++ String c b)%string = split_at c a ++ split_at c b.
Proof.
  induction a as [|x a IH]; cbn.
  - now rewrite Ascii.eqb_refl.
  - destruct (Ascii.eqb x c); [now rewrite IH|]. rewrite IH. pose proof (split_not_nil c a). now destruct (split_at c a).
Qed.
Lemma split_plain c a : has_char c a = false -> split_at c a = [a].
Proof. induction a as [|x a IH]; cbn; [reflexivity|]. intros H. apply orb_false_iff in H. destruct H as [H1 H2]. rewrite H1, IH by assumption. reflexivity. Qed.
Fixpoint join (ps : list string) : string := match ps with [] => "" | [p] => p | p :: rest => (p ++ "/" ++ join rest)%string end.
Lemma split_join s : join (split_at "/" s) = s /\ forall p, In p (split_at "/" s) -> has_char "/" p = false.
Proof.
  induction s as [|x s [IH1 IH2]]; [split; [reflexivity|]; intros p [<-|[]]; reflexivity|]. cbn [split_at]. destruct (Ascii.eqb x "/") eqn:E.
  - apply Ascii.eqb_eq in E. subst x. split.
    + pose proof (split_not_nil "/" s). destruct (split_at "/" s) as [|p ps]; [congruence|]. change (join ("" :: p :: ps)) with ("/" ++ join (p :: ps))%string. now rewrite IH1.
    + intros p [<-|H]; [reflexivity|now apply IH2].
  - pose proof (split_not_nil "/" s) as N. destruct (split_at "/" s) as [|p ps]; [congruence|]. split.
    + rewrite <- IH1. destruct ps as [|p' ps]; reflexivity.
    + intros p' [<-|H]; [cbn; rewrite E; apply IH2; now left|apply IH2; now right].
Qed.
Definition counts (p : string) : bool := negb (String.eqb p "" || String.eqb p ".").
Lemma components_app a b : components (a ++ String "/" b)%string = components a ++ components b.
Proof. unfold components. rewrite split_app. apply filter_app. Qed.
Lemma components_plain a : has_char "/" a = false -> counts a = true -> components a = [a].
Proof. intros H K. unfold components. rewrite split_plain by assumption. cbn. fold (counts a). now rewrite K. Qed.
Lemma components_trailing t : trailing t -> components t = [] /\ forall a, components (a ++ t)%string = components a.
Proof.
  induction 1 as [|t T [IH1 IH2]|t T [IH1 IH2]].
  - split; [reflexivity|]. intros a. now rewrite app_nil_s.
  - split.
    + change ("/" ++ t)%string with ("" ++ String "/" t)%string. rewrite components_app, IH1. reflexivity.
    + intros a. change ("/" ++ t)%string with (String "/" t). rewrite components_app, IH1. apply app_nil_r.
  - split.
    + change ("/." ++ t)%string with ("" ++ String "/" ("." ++ t))%string. rewrite components_app, IH2. reflexivity.
    + intros a. change ("/." ++ t)%string with (String "/" ("." ++ t)%string). rewrite components_app, IH2. apply app_nil_r.
Qed.
(** the last component, where it is in the path *)
Lemma pieces_trailing ps : filter counts ps = [] -> trailing (fold_right (fun p t => ("/" ++ p ++ t)%string) "" ps).
Proof.
  induction ps as [|p ps IH]; cbn [fold_right filter]; intros H; [constructor|]. destruct (counts p) eqn:C; [discriminate|]. specialize (IH H). unfold counts in C. apply negb_false_iff, orb_true_iff in C.
  destruct C as [C|C]; apply String.eqb_eq in C; subst p; [apply (trailing_slash _ IH)|apply (trailing_dot _ IH)].
Qed.
Lemma join_fold p ps : join (p :: ps) = (p ++ fold_right (fun p t => ("/" ++ p ++ t)%string) "" ps)%string.
Proof.
  revert p. induction ps as [|p' ps IH]; intros p; [cbn; now rewrite app_nil_s|]. change (join (p :: p' :: ps)) with (p ++ "/" ++ join (p' :: ps))%string. rewrite IH. reflexivity.
Qed.
Lemma last_piece ps : forall l name, filter counts ps = l ++ [name] -> exists directory rest, join ps = (directory ++ name ++ rest)%string /\ (directory = "" \/ exists d, directory = (d ++ "/")%string) /\ trailing rest.
Proof.
  induction ps as [|p ps IH]; intros l name H; [destruct l; discriminate|]. cbn [filter] in H. destruct (filter counts ps) as [|k ks] eqn:F.
  - assert (E : name = p). { destruct (counts p); [|destruct l; discriminate]. destruct l as [|? l]; [now injection H as <-|]. injection H as _ H. destruct l; discriminate. }
    subst p. exists "", (fold_right (fun p t => ("/" ++ p ++ t)%string) "" ps). split; [apply join_fold|]. split; [now left|]. now apply pieces_trailing.
  - assert (exists l', k :: ks = l' ++ [name]) as [l' L']. { destruct (counts p); [|now exists l]. destruct l as [|? l]; [injection H; discriminate|]. injection H as _ H. now exists l. }
    destruct (IH l' name L') as (d & rest & J & D & T). exists (p ++ "/" ++ d)%string, rest. split; [|split; [|assumption]].
    + destruct ps as [|p' ps]; [discriminate|]. change (join (p :: p' :: ps)) with (p ++ "/" ++ join (p' :: ps))%string. rewrite J. now rewrite !app_assoc_s.
    + right. destruct D as [->|[d' ->]]; [exists p; now rewrite app_nil_s|]. exists (p ++ "/" ++ d')%string. now rewrite !app_assoc_s.
Qed.

(** ** The last dot *)
Lemma last_dot_some s a b : last_dot s = Some (a, b) -> s = (a ++ "." ++ b)%string.
Proof.
  revert a b. induction s as [|x s IH]; intros a b; cbn [last_dot]; [discriminate|]. destruct (last_dot s) as [[a' b']|].
  - intros E. injection E as <- <-. now rewrite (IH a' b' eq_refl).
  - destruct (Ascii.eqb x ".") eqn:X; [|discriminate]. intros E. injection E as <- <-. apply Ascii.eqb_eq in X. now subst x.
Qed.
Lemma last_dot_none s : has_char "." s = false -> last_dot s = None.
Proof. induction s as [|x s IH]; cbn; [reflexivity|]. intros H. apply orb_false_iff in H. destruct H as [H1 H2]. now rewrite IH, H1. Qed.
Lemma last_dot_at a b : has_char "." b = false -> last_dot (a ++ "." ++ b)%string = Some (a, b).
Proof. intros H. induction a as [|x a IH]; cbn [String.append last_dot]; [now rewrite last_dot_none, Ascii.eqb_refl|]. cbn [String.append] in IH. now rewrite IH. Qed.

(** ** Extensions *)
Lemma extension_iff path e : has_char "." e = false -> has_char "/" e = false -> (2 <= String.length e)%nat -> extension path = Some e <-> has_extension path e.
Proof.
  intros ED ES EL. split.
  - unfold extension, file_name. destruct (rev (components path)) as [|name l] eqn:R; [discriminate|]. destruct (String.eqb name ".."); [discriminate|]. destruct (last_dot name) as [[a b]|] eqn:D; [|discriminate].
    destruct (String.eqb a "") eqn:A; [discriminate|]. intros X. injection X as ->. apply String.eqb_neq in A. apply (f_equal (@rev string)) in R. rewrite rev_involutive in R. cbn [rev] in R.
    destruct (last_piece (split_at "/" path) _ _ R) as (d & rest & J & DD & T). destruct (split_join path) as [SJ SP]. rewrite SJ in J. pose proof (last_dot_some _ _ _ D) as N.
    assert (I : In name (split_at "/" path)). { assert (K : In name (components path)) by (rewrite R; apply in_or_app; right; now left). unfold components in K. apply filter_In in K. apply K. }
    apply SP in I. rewrite N, has_char_app in I. apply orb_false_iff in I. destruct I as [I _]. exists d, a, rest. split; [|split; [assumption|split; [assumption|split; [now apply no_slash_char|assumption]]]].
    rewrite J, N. now rewrite !app_assoc_s.
  - intros (d & stem & rest & -> & D & N & S & T). apply no_slash_char in S. set (name := (stem ++ "." ++ e)%string).
    assert (NS : has_char "/" name = false) by (unfold name; rewrite !has_char_app, S; cbn; assumption).
    assert (NL : (4 <= String.length name)%nat). { unfold name. assert (LA : forall a b, String.length (a ++ b)%string = (String.length a + String.length b)%nat) by (induction a as [|x a IH]; intros b; cbn; [reflexivity|now rewrite IH]). rewrite !LA. cbn [String.length]. destruct stem; [congruence|]. cbn [String.length]. lia. }
    assert (C : components name = [name]). { apply components_plain; [assumption|]. unfold counts. destruct name as [|x [|y name]]; cbn in NL; try lia. cbn. now destruct (Ascii.eqb x "."). }
    assert (P : (d ++ stem ++ "." ++ e ++ rest)%string = ((d ++ name) ++ rest)%string) by (unfold name; now rewrite !app_assoc_s).
    assert (L : exists l, components (d ++ stem ++ "." ++ e ++ rest)%string = l ++ [name]).
    { rewrite P. rewrite (proj2 (components_trailing rest T)). destruct D as [->|[d' ->]]; [exists []; exact C|]. rewrite <- app_assoc_s. cbn [String.append]. rewrite components_app, C. now eexists. }
    destruct L as [l L]. unfold extension, file_name. rewrite L, rev_app_distr. cbn [rev app]. destruct (String.eqb name "..") eqn:X.
    + apply String.eqb_eq in X. rewrite X in NL. cbn in NL. lia.
    + unfold name. rewrite last_dot_at by assumption. destruct (String.eqb stem "") eqn:Y; [|reflexivity]. apply String.eqb_eq in Y. congruence.
Qed.
Lemma known_extension path : match extension path with Some e => (String.eqb e "mps" || String.eqb e "SIF")%bool | None => false end = true <-> has_extension path "mps" \/ has_extension path "SIF".
Proof.
  rewrite <- !extension_iff by (reflexivity || (cbn; lia)). destruct (extension path) as [e|]; [|split; [discriminate|intros [H|H]; discriminate H]]. rewrite orb_true_iff, !String.eqb_eq.
  split; (intros [H|H]; [left|right]); congruence.
Qed.
Lemma import_spec b files path :
  match import b files path with
  | NotReadable => files path = None
  | UnknownExtension => files path <> None /\ ~ has_extension path "mps" /\ ~ has_extension path "SIF"
  | Parsed m => (has_extension path "mps" \/ has_extension path "SIF") /\ exists text, files path = Some text /\ m = parse_free b text
  end.
Proof.
  unfold import. destruct (files path) as [text|]; [|reflexivity]. pose proof (known_extension path) as K. destruct (extension path) as [e|].
  - destruct (String.eqb e "mps" || String.eqb e "SIF")%bool.
    + split; [now apply K|]. now exists text.
    + split; [discriminate|]. split; intros H; [assert (X : false = true) by (apply K; now left)|assert (X : false = true) by (apply K; now right)]; discriminate X.
  - split; [discriminate|]. split; intros H; [assert (X : false = true) by (apply K; now left)|assert (X : false = true) by (apply K; now right)]; discriminate X.
Qed.
Lemma import_known b files path text : files path = Some text -> has_extension path "mps" \/ has_extension path "SIF" -> import b files path = Parsed (parse_free b text).
Proof.
  intros F H. pose proof (import_spec b files path) as I. destruct (import b files path) as [| |m]; [congruence| |].
  - destruct I as (_ & A & B). destruct H; contradiction.
  - destruct I as (_ & t & T & ->). rewrite F in T. now injection T as <-.
Qed.
Lemma solve_path_text b files path text r n fuel : files path = Some text -> has_extension path "mps" \/ has_extension path "SIF" -> solve_path b files r n fuel path = PathAnswer (presolve_text b r n fuel text).
Proof. intros F H. unfold solve_path. now rewrite (import_known b files path text F H). Qed.
Lemma solve_path_file_error b files path r n fuel : solve_path b files r n fuel path = FileError <->
  files path = None \/ (~ has_extension path "mps" /\ ~ has_extension path "SIF").
Proof.
  pose proof (import_spec b files path) as S. unfold solve_path. destruct (import b files path) as [| |m].
  - split; [intros _; now left|reflexivity].
  - split; [intros _; right; tauto|reflexivity].
  - destruct S as (E & text & F & _). split; [discriminate|]. intros [C|C]; [congruence|tauto].
Qed.
(** only the one file matters *)
Lemma import_one_file b files files' path : files path = files' path -> import b files path = import b files' path.
Proof. intros E. unfold import. now rewrite E. Qed.
(** ** From the path to the answer *)
Lemma import_read b files path text f : files path = Some text -> has_extension path "mps" \/ has_extension path "SIF" -> file_ok f -> spells text f ->
  exists m, import b files path = Parsed (Got m) /\ describes m f.
Proof. intros F H OK T. destruct (text_reads b f text OK T) as (m & P & D). exists m. split; [|assumption]. now rewrite (import_known b files path text F H), P. Qed.
Lemma path_optimum b files path text f r n fuel s : files path = Some text -> has_extension path "mps" \/ has_extension path "SIF" ->
  file_ok f -> file_solvable f -> spells text f -> fsense f = Minimize -> safe_text b fuel text = true ->
  solve_path b files r n fuel path = PathAnswer (Got (Ok (Solved_to s))) ->
  map fst (s_values s) = map fst (columns_of f) /\ foptimal f (answer_at s) /\ s_objective s = fcost f (answer_at s).
Proof.
  intros F H OK FS T M SR E. rewrite (solve_path_text b files path text r n fuel F H) in E. injection E as E. destruct (pre_with_answer (parse_free b) f text r n fuel _ FS (text_reads b f text OK T) SR E) as (A & B & C). auto.
Qed.
Lemma path_complete b files path text f x : files path = Some text -> has_extension path "mps" \/ has_extension path "SIF" ->
  file_ok f -> file_solvable f -> spells text f -> fsense f = Minimize -> (forall fuel, safe_text b fuel text = true) -> foptimal f x ->
  exists fuel s, solve_path b files UseRows FirstProfitable fuel path = PathAnswer (Got (Ok (Solved_to s))) /\ s_objective s = fcost f x.
Proof.
  intros F H OK FS T M SR O. destruct (pre_with_complete (parse_free b) f text x FS (text_reads b f text OK T) SR M O) as (fuel & s & E & C). exists fuel, s. split; [|assumption].
  rewrite (solve_path_text b files path text _ _ fuel F H). now f_equal.
Qed.
