(** PropFileset.v: properties C120-C122 (my_fileset: a set of files that follows a list). *)
From Verif Require Import Base Lib Libc ModelName ModelFromStr ModelFileset SpecFileset ProofFileset.

Lemma cstr_text : forall s, ~ In 0 s -> cstr s = s.
Proof.
  intros s H. unfold cstr. induction s as [|c s IH]; [reflexivity|]. cbn [split_at]. destruct (c =? 0) eqn:E; [exfalso; apply H; left; lia|].
  assert (IH' := IH (fun I => H (or_intror I))). destruct (split_at _ s) as [a r] eqn:Sp. cbn [fst] in *. congruence.
Qed.
Lemma path_ok : forall dir line s, line_text line s -> path_of dir line = dir ++ [47] ++ s.
Proof.
  intros dir line s (N & [->|(-> & L)]); unfold path_of; cbv zeta.
  - rewrite cstr_text by (rewrite in_app_iff; intros [H|[H|[]]]; [auto|discriminate]). replace (dir ++ 47 :: s ++ [10]) with ((dir ++ [47] ++ s) ++ [10]) by (rewrite <- !app_assoc; reflexivity).
    rewrite last_last, removelast_last. reflexivity.
  - rewrite cstr_text by auto. assert (Q : last (dir ++ 47 :: s) 0 <> 10).
    { destruct s as [|c s] using rev_ind; [rewrite last_last; lia|]. rewrite app_comm_cons, app_assoc, last_last. rewrite last_last in L. exact L. }
    replace (last (dir ++ 47 :: s) 0 =? 10) with false by lia. reflexivity.
Qed.
Lemma lists_ok : forall dir w ns, lists dir w ns -> filter (w_exists w) (map (path_of dir) (w_lines w)) = ns.
Proof.
  intros dir w ns (ss & F & ->). f_equal. induction F as [|l s ls ss' H F IH]; [reflexivity|]. cbn [map]. rewrite IH, (path_ok _ _ _ H). reflexivity.
Qed.

Definition fs_ok (fs : fileset) : Prop := in_order fs /\ Forall (fun e => fe_keep e = false) (fs_entries fs).
Lemma in_order_names : forall fs, in_order fs <-> StronglySorted before (names (fs_entries fs)).
Proof. intros fs. unfold in_order, held, names. rewrite map_map. reflexivity. Qed.
Lemma names_pairs : forall l, map fst (pairs l) = names l.
Proof. intros l. unfold pairs, names. rewrite map_map. reflexivity. Qed.
Lemma dropped_all : forall l, Forall (fun e => fe_keep e = false) l -> dropped l = l.
Proof. intros l F. induction F as [|e l E F IH]; [reflexivity|]. unfold dropped. cbn [filter]. rewrite E. cbn [negb]. f_equal. exact IH. Qed.
Lemma unloads_pairs : forall l, unloads true l = unload_all (pairs l).
Proof. intros l. unfold unloads, unload_all, pairs. rewrite map_map. reflexivity. Qed.

(** What one reload does that reads the list. *)
Lemma reload_ok : forall f w fs tr st ns fs' tr', fs_ok fs -> w_stat w = Some st -> st <> fs_last fs -> w_open w = true -> lists (fs_dir fs) w ns -> NoDup ns ->
  fileset_reload (Some f) true w fs tr = (fs', tr') ->
  fs_ok fs' /\ fs_last fs' = st /\ fs_dir fs' = fs_dir fs /\ Permutation (map fst (held fs')) ns /\ (forall n p, In (n, p) (held fs) -> In n ns -> In (n, p) (held fs')) /\
  exists new gone kept, tr' = tr ++ load_all new ++ unload_all gone /\ map fst new = filter (fun n => negb (is_in n (map fst (held fs)))) ns /\
    gone = filter (fun p => negb (is_in (fst p) ns)) (held fs) /\ Permutation (held fs') (new ++ kept) /\ Permutation (held fs) (gone ++ kept).
Proof.
  intros f w fs tr st ns fs' tr' [SO SF] ST NL OP LS ND E. unfold fileset_reload in E. rewrite ST in E.
  replace ((fst (fs_last fs) =? fst st) && (snd (fs_last fs) =? snd st)) with false in E.
  2:{ symmetry. apply andb_false_iff. destruct (Z.eq_dec (fst (fs_last fs)) (fst st)) as [A|A]; [right|left; lia]. apply Z.eqb_neq. intros B. apply NL. destruct st, (fs_last fs). cbn in *. congruence. }
  rewrite OP in E. cbn [negb fs_dir fs_entries fs_last] in E. destruct (read_lines _ _ _ _ _ _ _) as [[old' new'] tr1] eqn:R.
  apply in_order_names in SO. apply read_lines_ok in R; auto. cbv zeta in R. rewrite (lists_ok _ _ _ LS) in R. destruct R as (nn & -> & E1 & E2 & E3 & E4 & E5). cbn [app] in *.
  injection E as <- <-. rewrite (dropped_all (fs_entries fs)) in E5 by auto. set (olds := fs_entries fs) in *.
  assert (NN : NoDup (names nn)) by (rewrite E1; auto). pose proof (sorted_nodup _ SO) as NO.
  assert (Keep : forall n p, In (n, p) (pairs olds) -> In n ns -> In (n, p) (pairs nn)).
  { intros n p I J. rewrite <- E1 in J. unfold names in J. apply in_map_iff in J as (e & En & J).
    assert (In (fe_name e) (names olds)) as K by (rewrite En, <- names_pairs; apply (in_map fst) in I; exact I).
    pose proof (E4 e J K) as Q. rewrite En in Q. assert (fe_ptr e = p) as <-.
    { rewrite <- names_pairs in NO. clear - Q I NO. revert NO Q I. generalize (pairs olds) as l. generalize (fe_ptr e) as q. intros q l. induction l as [|x l IHl]; intros NO Q I; [contradiction|].
      cbn in NO. inversion NO as [|? ? Nx NO']; subst. destruct I as [I|I], Q as [Q|Q].
      - congruence.
      - exfalso. apply Nx. subst x. apply (in_map fst) in Q. exact Q.
      - exfalso. apply Nx. subst x. apply (in_map fst) in I. exact I.
      - auto. }
    unfold pairs. apply in_map_iff. exists e. split; congruence. }
  assert (HP : Permutation (pairs (sort_entries nn)) (pairs nn)) by (apply Permutation_map, sort_perm).
  split; [split|]; cbn [fs_entries fs_last fs_dir].
  - apply in_order_names. cbn [fs_entries]. apply sort_sorted. auto.
  - rewrite Forall_forall in *. intros e I. apply E2. eapply Permutation_in; [apply sort_perm|exact I].
  - split; [reflexivity|]. split; [reflexivity|]. unfold held. cbn [fs_entries]. fold (pairs (sort_entries nn)). fold olds. fold (pairs olds). split; [rewrite HP, names_pairs, E1; reflexivity|]. split.
    { intros n p I J. apply (Permutation_in _ (Permutation_sym HP)). auto. }
    exists (filter (not_in (names olds)) (pairs nn)), (filter (not_in ns) (pairs olds)), (filter (fun p => is_in (fst p) ns) (pairs olds)).
    split; [|split; [|split; [|split]]].
    + rewrite E3, <- app_assoc. pose proof (unloads_pairs (dropped old')) as U. rewrite E5 in U. unfold unloads in U. unfold dropped in U. unfold names. rewrite <- U. reflexivity.
    + rewrite names_pairs, <- E1, <- (names_pairs nn). generalize (names olds) as no. generalize (pairs nn) as l. intros l no. induction l as [|p l IH]; [reflexivity|]. cbn [map filter]. unfold not_in at 1. destruct (negb _); cbn [map]; congruence.
    + reflexivity.
    + rewrite HP. assert (G : Permutation (filter (fun p => is_in (fst p) (names olds)) (pairs nn)) (filter (fun p => is_in (fst p) ns) (pairs olds))).
      { apply NoDup_Permutation.
        - apply NoDup_filter. apply (NoDup_map_inv fst). rewrite names_pairs. auto.
        - apply NoDup_filter. apply (NoDup_map_inv fst). rewrite names_pairs. auto.
        - intros [n p]. rewrite !filter_In, !is_in_true. cbn [fst]. split; intros [I J].
          + unfold pairs in I. apply in_map_iff in I as (e & Q & I). injection Q as Qn Qp. subst. split; [apply E4; auto|]. apply in_map; auto.
          + split; [apply Keep; auto|]. rewrite <- names_pairs. apply (in_map fst) in I. exact I. }
      rewrite <- G. generalize (pairs nn) as l. intros l. induction l as [|p l IH]; [constructor|]. cbn [filter]. unfold not_in at 1. destruct (is_in (fst p) (names olds)); cbn [negb]; [|cbn; auto].
      rewrite IH at 1. apply Permutation_middle.
    + generalize (pairs olds) as l. intros l. induction l as [|p l IH]; [constructor|]. cbn [filter]. unfold not_in at 1. destruct (is_in (fst p) ns); cbn [negb]; [|cbn; auto]. rewrite IH at 1. apply Permutation_middle.
Qed.
(** ** Histories *)
Lemma loaded_app : forall a b, loaded (a ++ b) = loaded a ++ loaded b. Proof. intros. apply flat_map_app. Qed.
Lemma unloaded_app : forall a b, unloaded (a ++ b) = unloaded a ++ unloaded b. Proof. intros. apply flat_map_app. Qed.
Lemma loaded_loads : forall l, loaded (load_all l) = l /\ unloaded (load_all l) = [].
Proof. induction l as [|[n p] l [A B]]; cbn; [auto|]. split; [f_equal; exact A|exact B]. Qed.
Lemma loaded_unloads : forall l, loaded (unload_all l) = [] /\ unloaded (unload_all l) = l.
Proof. induction l as [|[n p] l [A B]]; cbn; [auto|]. split; [exact A|f_equal; exact B]. Qed.
Definition fine (tr : list fevent) : Prop := forall pre post, tr = pre ++ post -> exists rest, Permutation (loaded pre) (unloaded pre ++ rest).
Lemma split_app : forall {A} (a b p q : list A), a ++ b = p ++ q -> (exists r, a = p ++ r /\ q = r ++ b) \/ (exists r, p = a ++ r /\ b = r ++ q).
Proof.
  induction a as [|x a IH]; intros b p q E; [right; exists p; auto|]. destruct p as [|y p]; [left; exists (x :: a); auto|]. cbn in E. injection E as -> E.
  destruct (IH _ _ _ E) as [(r & -> & ->)|(r & -> & ->)]; [left|right]; exists r; auto.
Qed.
Lemma map_split : forall {A B} (g : A -> B) l p q, map g l = p ++ q -> exists a b, l = a ++ b /\ p = map g a /\ q = map g b.
Proof.
  intros A B g l. induction l as [|x l IH]; intros p q E; cbn in E; [symmetry in E; apply app_eq_nil in E as [-> ->]; exists [], []; auto|].
  destruct p as [|y p]; [exists [], (x :: l); auto|]. injection E as <- E. apply IH in E as (a & b & -> & -> & ->). exists (x :: a), b. auto.
Qed.
(** The balance after some events, [h] being held. *)
Lemma fine_more : forall tr new gone h kept, fine tr -> Permutation (loaded tr) (unloaded tr ++ h) -> Permutation h (gone ++ kept) ->
  fine (tr ++ load_all new ++ unload_all gone).
Proof.
  intros tr new gone h kept F B H pre post E. apply split_app in E as [(r & -> & ->)|(r & -> & E)]; [eauto|].
  apply split_app in E as [(s & E & ->)|(s & -> & E)].
  - unfold load_all in E. apply map_split in E as (a & b & -> & -> & ->). exists (h ++ a). rewrite loaded_app, unloaded_app. fold (load_all a). destruct (loaded_loads a) as [-> ->]. rewrite app_nil_r, B, app_assoc. reflexivity.
  - unfold unload_all in E. apply map_split in E as (a & b & -> & -> & ->). exists (b ++ kept ++ new). rewrite !loaded_app, !unloaded_app. fold (unload_all a). destruct (loaded_loads new) as [-> ->]. destruct (loaded_unloads a) as [-> ->].
    rewrite !app_nil_r, B, H. cbn [app]. rewrite <- !app_assoc. reflexivity.
Qed.
Definition inv (dir : bytes) (fs : fileset) (tr : list fevent) : Prop :=
  fs_ok fs /\ fs_dir fs = dir /\ Permutation (loaded tr) (unloaded tr ++ held fs) /\ fine tr.
Lemma inv_step : forall f dir w fs tr fs' tr', once dir w -> inv dir fs tr -> fileset_reload (Some f) true w fs tr = (fs', tr') -> inv dir fs' tr'.
Proof.
  intros f dir w fs tr fs' tr' (ns & LS & ND) (K & D & B & F) E. destruct (w_stat w) as [st|] eqn:ST.
  2:{ unfold fileset_reload in E. rewrite ST in E. injection E as <- <-. repeat split; auto; apply K. }
  destruct (Z.eq_dec (fst (fs_last fs)) (fst st)) as [A1|A1]; [destruct (Z.eq_dec (snd (fs_last fs)) (snd st)) as [A2|A2]|].
  { unfold fileset_reload in E. rewrite ST in E. replace ((fst (fs_last fs) =? fst st) && (snd (fs_last fs) =? snd st)) with true in E by lia. injection E as <- <-. repeat split; auto; apply K. }
  all: assert (NL : st <> fs_last fs) by congruence; destruct (w_open w) eqn:OP;
    [|unfold fileset_reload in E; rewrite ST, OP in E; replace ((fst (fs_last fs) =? fst st) && (snd (fs_last fs) =? snd st)) with false in E by lia; injection E as <- <-; repeat split; auto; apply K];
    subst dir; destruct (reload_ok f w fs tr st ns fs' tr' K ST NL OP LS ND E) as (K' & _ & D' & _ & _ & new & gone & kept & -> & _ & _ & P1 & P2);
    (split; [exact K'|split; [exact D'|split; [|eapply fine_more; eauto]]]);
    rewrite !loaded_app, !unloaded_app; destruct (loaded_loads new) as [-> ->]; destruct (loaded_unloads gone) as [-> ->]; cbn [app]; rewrite app_nil_r, B, P1, P2, <- !app_assoc; do 2 apply Permutation_app_head; apply Permutation_app_comm.
Qed.
Lemma inv_run : forall f dir ws fs tr fs' tr', Forall (once dir) ws -> inv dir fs tr -> fileset_run (Some f) true ws fs tr = (fs', tr') -> inv dir fs' tr'.
Proof.
  intros f dir ws. induction ws as [|w ws IH]; intros fs tr fs' tr' O K E; cbn [fileset_run] in E; [injection E as <- <-; auto|]. inversion O; subst.
  destruct (fileset_reload _ _ w fs tr) as [fs1 tr1] eqn:R. apply (IH fs1 tr1); auto. apply (inv_step f dir w fs tr); auto.
Qed.
Lemma reached_inv : forall f dir fs tr, reached f dir fs tr -> inv dir fs tr.
Proof.
  intros f dir fs tr (ws & O & E). apply (inv_run f dir ws (fileset_init dir) []); auto. split; [split; constructor|]. split; [reflexivity|]. split; [constructor|].
  intros pre post Q. symmetry in Q. apply app_eq_nil in Q as [-> ->]. exists []. constructor.
Qed.

(** ** C120: one reload *)
(** The set file has changed and can be opened. Then the set holds exactly the listed files that exist, in order; files held before
    keep their pointer; load was called for the new ones, in the order of the list, and afterwards unload for those no longer listed. *)
Theorem C120_reload : forall f dir w fs tr st ns fs' tr', reached f dir fs tr -> w_stat w = Some st -> st <> fs_last fs -> w_open w = true -> lists dir w ns -> NoDup ns ->
  fileset_reload (Some f) true w fs tr = (fs', tr') ->
  in_order fs' /\ fs_last fs' = st /\ Permutation (map fst (held fs')) ns /\ (forall n p, In (n, p) (held fs) -> In n ns -> In (n, p) (held fs')) /\
  exists new, map fst new = filter (fun n => negb (is_in n (map fst (held fs)))) ns /\ (forall p, In p new -> In p (held fs')) /\
    tr' = tr ++ load_all new ++ unload_all (filter (fun p => negb (is_in (fst p) ns)) (held fs)).
Proof.
  intros f dir w fs tr st ns fs' tr' R ST NL OP LS ND E. apply reached_inv in R as (K & <- & _ & _).
  destruct (reload_ok f w fs tr st ns fs' tr' K ST NL OP LS ND E) as (K' & LA & D' & P & KP & new & gone & kept & -> & N & -> & P1 & P2).
  split; [apply K'|]. split; [auto|]. split; [auto|]. split; [auto|]. exists new. split; [auto|]. split; [|reflexivity].
  intros p I. eapply Permutation_in; [apply Permutation_sym, P1|]. apply in_or_app. auto.
Qed.
Print Assumptions C120_reload.
(** Otherwise nothing happens: no callback, the same files and pointers. *)
Theorem C120_otherwise : forall ld un w fs tr, w_stat w = None \/ w_stat w = Some (fs_last fs) \/ w_open w = false ->
  exists fs', fileset_reload ld un w fs tr = (fs', tr) /\ held fs' = held fs.
Proof.
  intros ld un w fs tr H. unfold fileset_reload. destruct (w_stat w) as [st|]; [|eauto].
  destruct ((fst (fs_last fs) =? fst st) && (snd (fs_last fs) =? snd st)) eqn:Q; [eauto|]. destruct H as [H|[H|H]]; [discriminate| |].
  - exfalso. injection H as ->. lia.
  - rewrite H. cbn [negb]. eexists. split; [reflexivity|reflexivity].
Qed.
Print Assumptions C120_otherwise.
(** my_fileset_get enumerates what is held. *)
Theorem C120_get : forall fs i, 0 <= i -> fileset_get fs i = nth_error (held fs) (Z.to_nat i).
Proof. intros fs i _. unfold fileset_get, held. rewrite nth_error_map. destruct (nth_error _ _); reflexivity. Qed.
Print Assumptions C120_get.

(** ** C121: every pointer loaded is held or was unloaded once *)
Theorem C121_balance : forall f dir fs tr, reached f dir fs tr -> Permutation (loaded tr) (unloaded tr ++ held fs).
Proof. intros f dir fs tr R. apply reached_inv in R as (_ & _ & B & _). exact B. Qed.
Print Assumptions C121_balance.
(** No file is held twice. *)
Theorem C121_distinct : forall f dir fs tr, reached f dir fs tr -> in_order fs /\ NoDup (map fst (held fs)).
Proof. intros f dir fs tr R. apply reached_inv in R as ((O & _) & _). split; [exact O|apply sorted_nodup; exact O]. Qed.
Print Assumptions C121_distinct.
(** Destroying the set unloads what is held: everything loaded has then been unloaded exactly as often. *)
Theorem C121_destroyed : forall f dir fs tr, reached f dir fs tr -> Permutation (loaded (fileset_destroy true fs tr)) (unloaded (fileset_destroy true fs tr)).
Proof.
  intros f dir fs tr R. apply reached_inv in R as (_ & _ & B & _). unfold fileset_destroy. rewrite unloads_pairs, loaded_app, unloaded_app.
  destruct (loaded_unloads (pairs (fs_entries fs))) as [-> ->]. rewrite app_nil_r. exact B.
Qed.
Print Assumptions C121_destroyed.
(** At no moment, also inside a call, has something been unloaded that was not loaded before and not yet unloaded. *)
Theorem C121_at_every_moment : forall f dir fs tr pre post, reached f dir fs tr -> fileset_destroy true fs tr = pre ++ post ->
  exists rest, Permutation (loaded pre) (unloaded pre ++ rest).
Proof.
  intros f dir fs tr pre post R E. apply reached_inv in R as (_ & _ & B & F). unfold fileset_destroy in E. rewrite unloads_pairs in E.
  apply (fine_more tr [] (pairs (fs_entries fs)) (held fs) [] F B ltac:(rewrite app_nil_r; reflexivity) pre post). exact E.
Qed.
Print Assumptions C121_at_every_moment.

(** A history: a is listed, then a and b, then only b; the callback numbers its calls. *)
Definition a_path : bytes := lit "/d/a".
Definition b_path : bytes := lit "/d/b".
Definition here (n : bytes) : bool := is_in n [a_path; b_path].
Definition ticket (tr : list fevent) (n : bytes) : Z := zlen tr + 1.
Definition world_of (t : Z) (ls : list bytes) : world := {| w_stat := Some (7, t); w_open := true; w_lines := ls; w_exists := here |}.
Definition a_line : bytes := lit "a" ++ [10].
Definition b_line : bytes := lit "b" ++ [10].
Definition ex_worlds : list world := [world_of 1 [a_line]; world_of 2 [b_line; lit "c" ++ [10]; lit "a"]; world_of 2 [a_line]; world_of 3 [b_line]].
Example C121_ex : exists fs tr, reached ticket (lit "/d") fs tr /\ held fs = [(b_path, 2)] /\ tr = [Load a_path 1; Load b_path 2; Unload a_path 1].
Proof.
  destruct (fileset_run (Some ticket) true ex_worlds (fileset_init (lit "/d")) []) as [fs tr] eqn:E. exists fs, tr. split.
  - exists ex_worlds. split; [|exact E]. assert (T : forall s r, ~ In 0 s -> r = s ++ [10] -> line_text r s) by (intros s r H ->; split; auto).
    assert (NA : ~ In 0 (lit "a") /\ ~ In 0 (lit "b") /\ ~ In 0 (lit "c")) by (vm_compute; intuition discriminate).
    repeat (apply Forall_cons || apply Forall_nil); unfold once, lists, world_of; cbn [w_lines w_exists].
    + exists [a_path]. split; [exists [lit "a"]; split; [apply Forall2_cons; [apply T; [tauto|reflexivity]|apply Forall2_nil]|reflexivity]|repeat constructor; cbn; tauto].
    + exists [b_path; a_path]. split.
      * exists [lit "b"; lit "c"; lit "a"]. split; [|reflexivity]. repeat apply Forall2_cons; try apply Forall2_nil; try (apply T; [tauto|reflexivity]). split; [tauto|]. right. split; [reflexivity|vm_compute; discriminate].
      * constructor; [|repeat constructor; cbn; tauto]. intros [H|[]]. vm_compute in H. discriminate.
    + exists [a_path]. split; [exists [lit "a"]; split; [apply Forall2_cons; [apply T; [tauto|reflexivity]|apply Forall2_nil]|reflexivity]|repeat constructor; cbn; tauto].
    + exists [b_path]. split; [exists [lit "b"]; split; [apply Forall2_cons; [apply T; [tauto|reflexivity]|apply Forall2_nil]|reflexivity]|repeat constructor; cbn; tauto].
  - vm_compute in E. injection E as <- <-. split; reflexivity.
Qed.

(** ** C122: nothing is unloaded twice, and the set follows its file: false in general *)
(** Proved: both, when no file is listed twice (C121) and every change is seen and can be read. *)
Theorem C122_follows_partial : forall f dir w fs tr st ns fs' tr', reached f dir fs tr -> w_stat w = Some st -> st <> fs_last fs -> w_open w = true -> lists dir w ns -> NoDup ns ->
  fileset_reload (Some f) true w fs tr = (fs', tr') -> Permutation (map fst (held fs')) ns.
Proof. intros. eapply C120_reload; eauto. Qed.
Print Assumptions C122_follows_partial.
(** A file listed twice is held twice with one pointer, and this one is unloaded twice although it was loaded once. *)
Theorem C122_twice_refuted : exists fs tr, fileset_run (Some ticket) true [world_of 1 [a_line]; world_of 2 [a_line; a_line]] (fileset_init (lit "/d")) [] = (fs, tr) /\
  loaded (fileset_destroy true fs tr) = [(a_path, 1)] /\ unloaded (fileset_destroy true fs tr) = [(a_path, 1); (a_path, 1)].
Proof. eexists. eexists. split; [vm_compute; reflexivity|split; reflexivity]. Qed.
Print Assumptions C122_twice_refuted.
(** When the changed file cannot be opened once, the change is never seen. *)
Theorem C122_missed_refuted : forall f un w fs tr, w_open w = false -> exists fs', fileset_reload (Some f) un w fs tr = (fs', tr) /\ held fs' = held fs /\
  forall w', w_stat w' = w_stat w -> w_stat w <> None -> fileset_reload (Some f) un w' fs' tr = (fs', tr).
Proof.
  intros f un w fs tr O. unfold fileset_reload at 1. destruct (w_stat w) as [st|] eqn:ST.
  2:{ exists fs. repeat split; auto. intros w' _ N. contradiction. }
  destruct ((fst (fs_last fs) =? fst st) && (snd (fs_last fs) =? snd st)) eqn:Q.
  - exists fs. repeat split; auto. intros w' S _. unfold fileset_reload. rewrite S, Q. reflexivity.
  - rewrite O. cbn [negb]. eexists. split; [reflexivity|]. split; [reflexivity|]. intros w' S _. unfold fileset_reload. rewrite S. cbn [fs_last]. rewrite !Z.eqb_refl. reflexivity.
Qed.
Print Assumptions C122_missed_refuted.
