(** Looking a name up behind a fixed prefix and suffix. *)
From Coq Require Import Strings.String.
From Verif Require Import Base NodeModel DispatchModel DispatchSpec.
Import List.
Open Scope list_scope.

Lemma ueqb_spec a b : ustr_eqb a b = true <-> a = b.
Proof. unfold ustr_eqb. destruct (list_eq_dec Z.eq_dec a b); split; congruence. Qed.

(** the part of [n] between [pre] and [suf], if it has both *)
Definition mid (pre suf n : ustr) : option ustr :=
  let m := firstn (length n - length pre - length suf) (skipn (length pre) n) in
  if ustr_eqb (pre ++ m ++ suf) n then Some m else None.
Lemma mid_some pre suf n m : mid pre suf n = Some m -> n = pre ++ m ++ suf.
Proof. unfold mid. destruct (ustr_eqb _ _) eqn:E; [|discriminate]. intros [= <-]. apply ueqb_spec in E. auto. Qed.
Lemma mid_app pre suf m : mid pre suf (pre ++ m ++ suf) = Some m.
Proof.
  unfold mid.
  assert (E : firstn (length (pre ++ m ++ suf) - length pre - length suf) (skipn (length pre) (pre ++ m ++ suf)) = m).
  { rewrite skipn_app, skipn_all2, Nat.sub_diag by lia. cbn [skipn app]. rewrite !app_length.
    replace (length pre + (length m + length suf) - length pre - length suf)%nat with (length m + 0)%nat by lia.
    rewrite firstn_app_2. cbn [firstn]. apply app_nil_r. }
  rewrite E. assert (H : ustr_eqb (pre ++ m ++ suf) (pre ++ m ++ suf) = true) by (apply ueqb_spec; reflexivity). rewrite H. reflexivity.
Qed.

Definition strip (pre suf : ustr) (ns : namespace) : list (ustr * binding) :=
  concat (map (fun e => match mid pre suf (lit (fst e)) with Some m => [(m, snd e)] | None => [] end) ns).
Definition chosen (b : option binding) (nargs : nat) : res (option string) :=
  match b with
  | None => Raise NotImplementedError
  | Some b => if (b_lo b <=? nargs)%nat && match b_hi b with None => true | Some hi => (nargs <=? hi)%nat end then Ret (Some (b_fun b)) else Raise TypeError
  end.
Fixpoint lookup (l : list (ustr * binding)) (a : ustr) : option binding :=
  match l with [] => None | (n, b) :: l => if list_eq_dec Z.eq_dec n a then Some b else lookup l a end.
Lemma dispatch_strip ns pre suf alg nargs : dispatch ns (pre ++ alg ++ suf) nargs = chosen (lookup (strip pre suf ns) alg) nargs.
Proof.
  unfold dispatch. assert (E : option_map snd (find (fun e => ustr_eqb (lit (fst e)) (pre ++ alg ++ suf)) ns) = lookup (strip pre suf ns) alg).
  { induction ns as [|[n b] ns IH]; [reflexivity|]. unfold strip. cbn [find map concat fst snd].
    destruct (ustr_eqb (lit n) (pre ++ alg ++ suf)) eqn:E.
    - apply ueqb_spec in E. rewrite E, mid_app. cbn [app lookup option_map snd]. destruct (list_eq_dec Z.eq_dec alg alg); [reflexivity|contradiction].
    - destruct (mid pre suf (lit n)) as [m|] eqn:M; cbn [app lookup].
      + destruct (list_eq_dec Z.eq_dec m alg) as [->|]; [|exact IH]. apply mid_some in M. apply ueqb_spec in M. congruence.
      + exact IH. }
  destruct (find _ ns) as [[n b]|]; cbn [option_map snd] in E; rewrite <- E; reflexivity.
Qed.
(** the looked-up names as literals *)
Definition lits (l : list (string * binding)) : list (ustr * binding) := map (fun e => (lit (fst e), snd e)) l.
Lemma dispatch_as ns pre suf nargs l : strip pre suf ns = lits l -> forall alg, dispatch ns (pre ++ alg ++ suf) nargs = chosen (lookup (lits l) alg) nargs.
Proof. intros E alg. rewrite dispatch_strip, E. reflexivity. Qed.

(** The names that a lookup knows settle a table. *)
Definition is_broken (b : binding) (nargs : nat) : bool :=
  negb ((b_lo b <=? nargs)%nat && match b_hi b with None => true | Some hi => (nargs <=? hi)%nat end).
Definition gimpl_eqb (i j : gimpl) : bool := match i, j with AdjList, AdjList | AdjMatrix, AdjMatrix => true | _, _ => false end.
Definition good_entry (t : table) (broken : list (string * gimpl)) (i : gimpl) (nargs : nat) (e : string * binding) : bool :=
  if is_broken (snd e) nargs then existsb (fun x => String.eqb (fst x) (fst e) && gimpl_eqb (snd x) i) broken
  else existsb (fun x => String.eqb (fst (fst x)) (fst e) && gimpl_eqb (snd (fst x)) i && String.eqb (snd x) (b_fun (snd e))) t.
Definition known (l : list (string * binding)) (n : string) : bool := existsb (fun e => String.eqb (fst e) n) l.
Definition good (t : table) (broken : list (string * gimpl)) (i : gimpl) (nargs : nat) (l : list (string * binding)) : bool :=
  forallb (good_entry t broken i nargs) l &&
  forallb (fun x => negb (gimpl_eqb (snd (fst x)) i) || known l (fst (fst x))) t && forallb (fun x => negb (gimpl_eqb (snd x) i) || known l (fst x)) broken.
Lemma gimpl_eqb_spec i j : gimpl_eqb i j = true <-> i = j.
Proof. destruct i, j; cbn; split; congruence. Qed.
Lemma lookup_some l a b : lookup (lits l) a = Some b -> exists n, a = lit n /\ In (n, b) l.
Proof.
  induction l as [|[n c] l IH]; cbn [lookup lits map fst snd In]; [discriminate|]. destruct (list_eq_dec Z.eq_dec (lit n) a) as [<-|].
  - intros [= <-]. eauto.
  - intros H. destruct (IH H) as (n' & ? & ?). eauto.
Qed.
Lemma lookup_none l n : lookup (lits l) (lit n) = None -> known l n = false.
Proof.
  induction l as [|[m c] l IH]; [reflexivity|]. cbn [lookup lits map fst snd known existsb]. destruct (list_eq_dec Z.eq_dec (lit m) (lit n)) as [|N]; [discriminate|]. intros H.
  destruct (String.eqb_spec m n) as [->|]; [contradiction|]. exact (IH H).
Qed.
Lemma good_runs t broken nargs (entry : ustr -> gimpl -> res (option string)) (l : gimpl -> list (string * binding)) :
  (forall alg i, entry alg i = chosen (lookup (lits (l i)) alg) nargs) -> (forall i, good t broken i nargs (l i) = true) -> runs_tables t [] broken entry.
Proof.
  intros E G alg i. unfold answers. specialize (G i). unfold good in G. apply andb_true_iff in G as [G G3]. apply andb_true_iff in G as [G1 G2].
  rewrite forallb_forall in G1, G2, G3. rewrite E, app_nil_r. destruct (lookup (lits (l i)) alg) as [b|] eqn:L.
  - destruct (lookup_some _ _ _ L) as (n & -> & Hin). specialize (G1 _ Hin). unfold good_entry, is_broken in G1. cbn [snd fst] in G1. unfold chosen.
    destruct ((b_lo b <=? nargs)%nat && _) eqn:A; cbn [negb] in G1.
    + left. apply existsb_exists in G1 as ([[n' i'] f] & Hx & C). cbn in C. apply andb_true_iff in C as [C C3]. apply andb_true_iff in C as [C1 C2].
      apply String.eqb_eq in C1, C3. apply gimpl_eqb_spec in C2. subst. eauto.
    + right. left. apply existsb_exists in G1 as ([n' i'] & Hx & C). cbn in C. apply andb_true_iff in C as [C1 C2]. apply String.eqb_eq in C1.
      apply gimpl_eqb_spec in C2. subst. eauto.
  - right. right. repeat apply conj; [| |reflexivity].
    + intros n f Hin ->. specialize (G2 _ Hin). cbn in G2. rewrite (lookup_none _ _ L) in G2. destruct i; discriminate.
    + intros n Hin ->. specialize (G3 _ Hin). cbn in G3. rewrite (lookup_none _ _ L) in G3. destruct i; discriminate.
Qed.
Lemma tables_table t entry : runs_tables t [] [] entry -> runs_table t entry.
Proof.
  intros H alg i. destruct (H alg i) as [(n & f & ? & Hin & ?)|[(n & ? & [] & ?)|(A & B & C)]].
  - left. rewrite app_nil_r in Hin. eauto.
  - right. split; [|exact C]. intros n f Hin. apply (A n f). rewrite app_nil_r. exact Hin.
Qed.
Lemma split_tables t extra broken entry : runs_tables (t ++ extra) [] broken entry -> runs_tables t extra broken entry.
Proof. intros H alg i. specialize (H alg i). unfold answers in *. rewrite app_nil_r in H. exact H. Qed.

(** entry points that read only the name *)
Lemma lit_inj a b : lit a = lit b -> a = b.
Proof.
  revert b. induction a as [|c a IH]; intros [|d b]; cbn [lit]; try discriminate; [reflexivity|]. intros [= E H]. f_equal; [|exact (IH _ H)].
  apply Nat2Z.inj in E. rewrite <- (Ascii.ascii_nat_embedding c), <- (Ascii.ascii_nat_embedding d), E. reflexivity.
Qed.
(** the names a lookup with this prefix and suffix knows *)
Definition between (pre suf : string) (ns : namespace) : list (string * binding) :=
  concat (map (fun e => if String.prefix pre (fst e) then
    let m := String.substring (String.length pre) (String.length (fst e) - String.length pre - String.length suf) (fst e) in
    if String.eqb (pre ++ m ++ suf)%string (fst e) then [(m, snd e)] else [] else []) ns).
Definition suffix_of (i : gimpl) : string := match i with AdjList => "_adjacency_list" | AdjMatrix => "_adjacency_matrix" end%string.
Lemma entry_as (pre : string) nargs : pre = "_"%string \/ pre = "_minimum_spanning_tree_"%string \/ pre = "_minimum_spanning_tree_parallel_"%string \/ pre = "_strongly_connected_components_"%string ->
  forall alg i, dispatch graphs_algorithms (lit pre ++ alg ++ lit "_" ++ impl_name i) nargs = chosen (lookup (lits (between pre (suffix_of i) graphs_algorithms)) alg) nargs.
Proof.
  intros P alg i. replace (lit "_" ++ impl_name i) with (lit (suffix_of i)) by (destruct i; reflexivity). apply dispatch_as.
  destruct P as [->|[->|[->| ->]]]; destruct i; vm_compute; reflexivity.
Qed.
