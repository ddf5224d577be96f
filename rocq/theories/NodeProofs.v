(** Proofs for C139 and C140. *)
From Coq Require Import Strings.String.
From Verif Require Import Base DsfModel GraphModel NodeModel NodeSpec.
Import List.

Lemma ueqb_eq a b : ustr_eqb a b = true <-> a = b.
Proof. unfold ustr_eqb. destruct list_eq_dec; split; congruence. Qed.
Lemma ueqb_refl a : ustr_eqb a a = true.
Proof. apply ueqb_eq. reflexivity. Qed.

(** ** strings *)
Lemma c_safe_cons c s : c_safe (c :: s) <-> (c <> 0 /\ ~ (55296 <= c <= 57343)) /\ c_safe s.
Proof. unfold c_safe. cbn. split; [intros H; split; [apply H; auto|intros x I; apply H; auto]|intros [A B] x [<-|I]; [exact A|apply B, I]]. Qed.
Lemma c_safe_string s : c_safe s -> c_string s = s /\ has_surrogate s = false /\ arg_s s = true.
Proof.
  induction s as [|c s IH]; intros H; [repeat split|]. apply c_safe_cons in H. destruct H as [[A B] H]. destruct (IH H) as (P & Q & R).
  unfold arg_s, has_surrogate in *. cbn [c_string existsb]. apply andb_prop in R. destruct R as [_ R].
  replace (c =? 0) with false by lia. replace (0 =? c) with false by lia. replace ((55296 <=? c) && (c <=? 57343)) with false by lia.
  cbn [orb]. rewrite P, Q. repeat split. exact R.
Qed.
Lemma c_string_fixed s : c_string s = s -> has_surrogate s = false -> c_safe s.
Proof.
  induction s as [|c s IH]; intros E H; [intros c []|]. cbn in *. destruct (c =? 0) eqn:X; [discriminate|]. injection E as E. unfold has_surrogate in H. cbn in H.
  apply orb_false_iff in H. destruct H as [H1 H2]. apply c_safe_cons. split; [lia|]. apply IH; assumption.
Qed.
Lemma arg_s_safe s : arg_s s = true <-> c_safe s.
Proof.
  split; [|apply c_safe_string]. induction s as [|c s IH]; intros H; [intros c []|]. unfold arg_s, has_surrogate in *. cbn [existsb] in H. apply c_safe_cons.
  apply andb_prop in H. destruct H as [A B]. rewrite negb_true_iff in A, B. apply orb_false_iff in A, B. destruct A as [A1 A2], B as [B1 B2].
  split; [lia|]. apply IH. rewrite A2, B2. reflexivity.
Qed.
Lemma to_std_safe s : c_safe s -> to_std s = Ret s.
Proof. intros H. destruct (c_safe_string s H) as (P & Q & _). unfold to_std. rewrite Q, P. reflexivity. Qed.

(** ** values *)
Lemma store_ok v : holdable v -> exists d, store v = Ret (d, false) /\ load d = plain_value v.
Proof.
  destruct v; cbn; intros H; try (eexists; split; [reflexivity|reflexivity]);
    try (rewrite to_std_safe by exact H; eexists; split; reflexivity);
    (unfold as_longlong, fits64; replace ((- 2 ^ 63 <=? z) && (z <? 2 ^ 63)) with true by lia; eexists; split; reflexivity).
Qed.
Lemma store_back v d : store v = Ret (d, false) -> load d = v -> holdable v /\ plain_value v = v.
Proof.
  destruct v; cbn; intros E L; try (split; [exact I|reflexivity]);
    try (injection E as <-; cbn in L; discriminate).
  - injection E as <- E. unfold fits64 in E. split; [|reflexivity]. rewrite negb_false_iff in E. lia.
  - unfold to_std in E. destruct (has_surrogate s) eqn:X; cbn in E; [discriminate|]. injection E as <-. cbn in L. injection L as L. split; [|reflexivity].
    apply c_string_fixed; assumption.
  - unfold to_std in E. destruct (has_surrogate s) eqn:X; cbn in E; [discriminate|]. injection E as <-. discriminate.
Qed.
Lemma cnode_new_ok name data : c_safe name -> holdable data -> exists d, cnode_new name data = Ret (mkcnode name d) /\ load d = plain_value data.
Proof.
  intros N H. destruct (store_ok data H) as (d & E & L). exists d. split; [|exact L]. unfold cnode_new. destruct (c_safe_string name N) as (_ & _ & ->). cbn [negb].
  rewrite E. reflexivity.
Qed.
Lemma cnode_set_data_ok adjlist n v : holdable v -> exists d, cnode_call adjlist n (NSetData v) = Ret (mkcnode (cn_name n) d, None) /\ load d = plain_value v.
Proof.
  intros H. destruct (store_ok v H) as (d & E & L). exists d. split; [|exact L].
  assert (G : cnode_set_data n v = Ret (mkcnode (cn_name n) d, None)) by (unfold cnode_set_data; rewrite E; reflexivity).
  destruct adjlist; [|exact G]. cbn [cnode_call]. unfold calnode_set_data. destruct v; try exact G; cbn in H, E; destruct (c_safe_string s H) as (P & Q & _);
    rewrite Q; rewrite to_std_safe in E by exact H; injection E as <-; rewrite P; reflexivity.
Qed.
Lemma cnode_run_loop adjlist ops : Forall good_nop ops -> forall n outs, exists n' d,
  forM ops (fun o '(n, outs) => '(n', e) <- cnode_call adjlist n o ;; Ret (n', outs ++ [e])) (n, outs) =
    Ret (mkcnode n' d, outs ++ map (fun _ => None) ops) /\
  n' = last_name (cn_name n) ops /\ forall v, plain_value v = load (cn_data n) -> load d = plain_value (last_data v ops).
Proof.
  induction ops as [|o ops IH]; intros F n outs.
  - exists (cn_name n), (cn_data n). cbn. rewrite app_nil_r. destruct n. repeat split. intros v H. symmetry. exact H.
  - inversion F as [|? ? G F']; subst. cbn [forM]. destruct o as [v|v].
    + destruct v; cbn in G; try contradiction; cbn [cnode_call cnode_set_name]; rewrite to_std_safe by exact G; cbn [bind];
        destruct (IH F' (mkcnode s (cn_data n)) (outs ++ [None])) as (n' & d & E & N & D); exists n', d; rewrite E, <- app_assoc; repeat split; assumption.
    + destruct (cnode_set_data_ok adjlist n v G) as (d0 & E0 & L0). rewrite E0. cbn [bind].
      destruct (IH F' (mkcnode (cn_name n) d0) (outs ++ [None])) as (n' & d & E & N & D). exists n', d. rewrite E, <- app_assoc. repeat split; try assumption.
      intros w _. cbn [last_data fold_left]. apply D. symmetry. exact L0.
Qed.

(** ** association lists *)
Section AL.
  Context {V : Type}.
  Implicit Types t : list (ustr * V).
  Lemma udget_set t k v s : udget (udset t k v) s = if list_eq_dec Z.eq_dec s k then Some v else udget t s.
  Proof.
    induction t as [|[k' v'] t IH]; cbn.
    - unfold ustr_eqb. destruct (list_eq_dec Z.eq_dec s k); reflexivity.
    - destruct (ustr_eqb k k') eqn:X; cbn.
      + apply ueqb_eq in X. subst k'. unfold ustr_eqb. destruct (list_eq_dec Z.eq_dec s k); reflexivity.
      + rewrite IH. destruct (ustr_eqb s k') eqn:Y; [|reflexivity]. apply ueqb_eq in Y. subst k'. destruct (list_eq_dec Z.eq_dec s k) as [->|]; [|reflexivity].
        rewrite ueqb_refl in X. discriminate.
  Qed.
  Lemma udget_pop t k s : udget (upop t k) s = if list_eq_dec Z.eq_dec s k then None else udget t s.
  Proof.
    unfold upop. induction t as [|[k' v'] t IH]; cbn [filter dget fst]; [destruct list_eq_dec; reflexivity|]. destruct (ustr_eqb k k') eqn:X; cbn [negb dget].
    - apply ueqb_eq in X. subst k'. rewrite IH. destruct (list_eq_dec Z.eq_dec s k) as [|N]; [reflexivity|]. destruct (ustr_eqb s k) eqn:Y; [apply ueqb_eq in Y; contradiction|reflexivity].
    - rewrite IH. destruct (ustr_eqb s k') eqn:Y; [|reflexivity]. apply ueqb_eq in Y. subst k'. destruct (list_eq_dec Z.eq_dec s k) as [->|]; [|reflexivity].
      rewrite ueqb_refl in X. discriminate.
  Qed.
  Lemma udget_in t k : udget t k <> None <-> In k (map fst t).
  Proof.
    induction t as [|[k' v'] t IH]; cbn; [intuition congruence|]. destruct (ustr_eqb k k') eqn:X.
    - apply ueqb_eq in X. subst. split; [auto|congruence].
    - rewrite IH. split; [auto|]. intros [<-|H]; [rewrite ueqb_refl in X; discriminate|exact H].
  Qed.
  Lemma udset_keys t k v : map fst (udset t k v) = match udget t k with Some _ => map fst t | None => map fst t ++ [k] end.
  Proof.
    induction t as [|[k' v'] t IH]; cbn; [reflexivity|]. destruct (ustr_eqb k k') eqn:X; cbn; [reflexivity|]. rewrite IH. destruct (udget t k); reflexivity.
  Qed.
  Lemma upop_keys t k : map fst (upop t k) = filter (fun x => negb (ustr_eqb k x)) (map fst t).
  Proof. unfold upop. induction t as [|[k' v'] t IH]; cbn [filter map fst]; [reflexivity|]. destruct (ustr_eqb k k'); cbn [negb map fst]; rewrite IH; reflexivity. Qed.
  Lemma udset_nodup t k v : NoDup (map fst t) -> NoDup (map fst (udset t k v)).
  Proof.
    intros N. rewrite udset_keys. destruct (udget t k) eqn:E; [exact N|]. apply Permutation_NoDup with (k :: map fst t); [apply Permutation_cons_append|].
    constructor; [|exact N]. intros I. apply udget_in in I. contradiction.
  Qed.
  Lemma upop_nodup t k : NoDup (map fst t) -> NoDup (map fst (upop t k)).
  Proof. intros N. rewrite upop_keys. apply NoDup_filter, N. Qed.
End AL.

(** ** histories *)
Lemma current_snoc ops o s : current (ops ++ [o]) s =
  match o with
  | AAdd x d => if list_eq_dec Z.eq_dec s x then Some d else current ops s
  | ARem x => if list_eq_dec Z.eq_dec s x then None else current ops s
  end.
Proof. unfold current. rewrite rev_app_distr. destruct o; reflexivity. Qed.
Lemma readded_snoc ops o s : readded (ops ++ [o]) s =
  match o with
  | AAdd x d => if list_eq_dec Z.eq_dec s x then match current ops s with Some _ => true | None => false end else readded ops s
  | ARem x => if list_eq_dec Z.eq_dec s x then false else readded ops s
  end.
Proof. unfold readded, current. rewrite rev_app_distr. destruct o; reflexivity. Qed.
Lemma outcomes_snoc ops outs o e : outcomes ops outs ->
  e = match o with AAdd _ _ => None | ARem x => match current ops x with Some _ => None | None => Some ValueError end end -> outcomes (ops ++ [o]) (outs ++ [e]).
Proof.
  intros [L H] ->. split; [rewrite !app_length, L; reflexivity|]. intros k o' E. destruct (Nat.lt_ge_cases k (length ops)) as [Hk|Hk].
  - rewrite nth_error_app1 in E by exact Hk. rewrite nth_error_app1 by lia. rewrite firstn_app. replace (k - length ops)%nat with 0%nat by lia. cbn [firstn]. rewrite app_nil_r.
    apply H, E.
  - rewrite nth_error_app2 in E by exact Hk. rewrite nth_error_app2 by lia. rewrite L. destruct (k - length ops)%nat eqn:X; cbn in E; [|destruct n; discriminate].
    injection E as <-. cbn [nth_error]. replace k with (length ops) by lia. rewrite firstn_app, Nat.sub_diag, firstn_all. cbn [firstn]. rewrite app_nil_r. reflexivity.
Qed.
Lemma outcomes_nil : outcomes [] [].
Proof. split; [reflexivity|]. intros [|k] o E; discriminate. Qed.

(** ** Python *)
Definition pyinv (ops : list aop) (n : pyadj) : Prop :=
  (forall s, udget (pa_attrs n) s = current ops s) /\ NoDup (map fst (pa_attrs n)) /\ pa_adjacent n = map EName (map fst (pa_attrs n)).
Lemma filter_all {X} (f : X -> bool) l : (forall x, In x l -> f x = true) -> filter f l = l.
Proof. induction l as [|x l IH]; intros H; [reflexivity|]. cbn. rewrite (H x) by (left; reflexivity). rewrite IH; [reflexivity|]. intros y I. apply H. right. exact I. Qed.
Lemma entry_remove_filter l k : NoDup l -> In k l -> entry_remove (map EName l) k = Some (map EName (filter (fun x => negb (ustr_eqb k x)) l)).
Proof.
  induction l as [|x l IH]; intros N I; [destruct I|]. inversion N as [|? ? NI N']; subst. cbn. destruct (ustr_eqb k x) eqn:X; cbn.
  - apply ueqb_eq in X. subst x. f_equal. f_equal. symmetry. apply filter_all. intros y Y.
    destruct (ustr_eqb k y) eqn:Z; [apply ueqb_eq in Z; subst; contradiction|reflexivity].
  - destruct I as [<-|I]; [rewrite ueqb_refl in X; discriminate|]. rewrite (IH N' I). reflexivity.
Qed.
Lemma pyadj_run_snoc n ops o : pyadj_run n (ops ++ [o]) =
  (let '(m, outs) := pyadj_run n ops in let '(n', e) := match o with AAdd x d => pyadj_add m x d | ARem x => pyadj_remove m x end in (n', outs ++ [e])).
Proof. unfold pyadj_run. rewrite fold_left_app. cbn [fold_left]. destruct (fold_left _ ops (n, [])). reflexivity. Qed.
Lemma py_run ops : Forall (fun o => ~ In (aop_name o) ureserved) ops -> forall n outs, pyadj_run (pyadj_new []) ops = (n, outs) -> pyinv ops n /\ outcomes ops outs.
Proof.
  induction ops as [|o ops IH] using rev_ind; intros F n outs E.
  - injection E as <- <-. split; [|apply outcomes_nil]. split; [reflexivity|]. split; [constructor|reflexivity].
  - apply Forall_app in F. destruct F as [F Fo]. inversion Fo as [|? ? R _]; subst. rewrite pyadj_run_snoc in E. destruct (pyadj_run (pyadj_new []) ops) as [m ms] eqn:X.
    destruct (IH F m ms eq_refl) as ((G & N & A) & O). clear IH.
    assert (R' : forall x, aop_name o = x -> umem x ureserved = false).
    { intros x <-. unfold umem. destruct (existsb _ _) eqn:Y; [|reflexivity]. apply existsb_exists in Y. destruct Y as (y & I & Y). apply ueqb_eq in Y. subst. contradiction. }
    destruct o as [x d|x]; cbn [aop_name] in R'.
    + unfold pyadj_add, pyadj_hasattr in E. rewrite (R' x eq_refl) in E. rewrite (G x) in E. destruct (current ops x) eqn:C.
      * injection E as <- <-. split; [|apply outcomes_snoc; [exact O|reflexivity]]. unfold pyinv. cbn [pa_attrs pa_adjacent]. split; [|split].
        -- intros s. rewrite udget_set, current_snoc, G. reflexivity.
        -- apply udset_nodup, N.
        -- rewrite udset_keys, G, C. exact A.
      * injection E as <- <-. split; [|apply outcomes_snoc; [exact O|reflexivity]]. unfold pyinv. cbn [pa_attrs pa_adjacent]. split; [|split].
        -- intros s. rewrite udget_set, current_snoc, G. reflexivity.
        -- apply udset_nodup, N.
        -- rewrite udset_keys, G, C, map_app, A. reflexivity.
    + unfold pyadj_remove, pyadj_hasattr in E. rewrite (R' x eq_refl) in E. rewrite (G x) in E. destruct (current ops x) eqn:C; cbn [negb] in E.
      * rewrite A in E. rewrite entry_remove_filter in E; [|exact N|apply udget_in; rewrite G, C; discriminate]. injection E as <- <-.
        split; [|apply outcomes_snoc; [exact O|rewrite C; reflexivity]]. unfold pyinv. cbn [pa_attrs pa_adjacent]. split; [|split].
        -- intros s. rewrite udget_pop, current_snoc, G. reflexivity.
        -- apply upop_nodup, N.
        -- rewrite upop_keys. reflexivity.
      * injection E as <- <-. split; [|apply outcomes_snoc; [exact O|rewrite C; reflexivity]]. split; [|split; assumption].
        intros s. rewrite current_snoc, G. destruct (list_eq_dec Z.eq_dec s x) as [->|]; [exact C|reflexivity].
Qed.

(** ** C++ *)
Lemma forM_snoc {B S} (l : list B) b (f : B -> S -> res S) s : forM (l ++ [b]) f s = (s' <- forM l f s ;; f b s').
Proof. revert s. induction l as [|a l IH]; intros s; cbn; [destruct (f b s); reflexivity|]. destruct (f a s); cbn; [apply IH|reflexivity|reflexivity]. Qed.
Definition cinv (ops : list aop) (n0 : cadj) (n : cadj) : Prop :=
  ca_node n = ca_node n0 /\ NoDup (map fst (ca_adj n)) /\
  forall s, match current ops s with
            | None => udget (ca_adj n) s = None
            | Some d => if readded ops s then udget (ca_adj n) s = Some (ChData d)
                        else exists sl, udget (ca_adj n) s = Some (ChNode (mkcnode s sl)) /\ load sl = plain_value d
            end.
Definition good_aop (o : aop) : Prop := match o with AAdd x d => c_safe x /\ holdable d | ARem x => c_safe x end.
Lemma c_run n0 : ca_adj n0 = [] -> forall ops, Forall good_aop ops -> exists n outs, cadj_run n0 ops = Ret (n, outs) /\ cinv ops n0 n /\ outcomes ops outs.
Proof.
  intros E0. induction ops as [|o ops IH] using rev_ind; intros F.
  - exists n0, []. split; [reflexivity|]. split; [|apply outcomes_nil]. split; [reflexivity|]. split; [rewrite E0; constructor|]. intros s. cbn. rewrite E0. reflexivity.
  - apply Forall_app in F. destruct F as [F Fo]. inversion Fo as [|? ? R _]; subst. destruct (IH F) as (m & ms & E & (D & N & G) & O). clear IH.
    unfold cadj_run in *. rewrite forM_snoc, E. cbn [bind]. destruct o as [x d|x]; cbn in R.
    + destruct R as [Sx Hd]. unfold cadj_add. destruct (c_safe_string x Sx) as (_ & _ & ->). cbn [negb].
      pose proof (G x) as Gx. destruct (current ops x) as [d'|] eqn:C.
      * assert (exists ch, udget (ca_adj m) x = Some ch) as (ch & ->) by (destruct (readded ops x); [eexists; exact Gx|destruct Gx as (sl & Gx & _); eexists; exact Gx]).
        cbn [bind]. eexists _, _. split; [reflexivity|]. split; [|apply outcomes_snoc; [exact O|reflexivity]]. unfold cinv. cbn [ca_node ca_adj]. split; [exact D|]. split; [apply udset_nodup, N|].
        intros s. rewrite current_snoc, readded_snoc, udget_set. destruct (list_eq_dec Z.eq_dec s x) as [->|]; [rewrite C; reflexivity|apply G].
      * rewrite Gx. destruct (cnode_new_ok x d Sx Hd) as (sl & -> & L). cbn [bind]. eexists _, _. split; [reflexivity|].
        split; [|apply outcomes_snoc; [exact O|reflexivity]]. unfold cinv. cbn [ca_node ca_adj]. split; [exact D|]. split; [apply udset_nodup, N|].
        intros s. rewrite current_snoc, readded_snoc, udget_set. destruct (list_eq_dec Z.eq_dec s x) as [->|]; [rewrite C; exists sl; split; [reflexivity|exact L]|apply G].
    + unfold cadj_remove. destruct (c_safe_string x R) as (_ & _ & ->). cbn [negb].
      pose proof (G x) as Gx. destruct (current ops x) as [d'|] eqn:C.
      * assert (exists ch, udget (ca_adj m) x = Some ch) as (ch & ->) by (destruct (readded ops x); [eexists; exact Gx|destruct Gx as (sl & Gx & _); eexists; exact Gx]).
        cbn [bind]. eexists _, _. split; [reflexivity|]. split; [|apply outcomes_snoc; [exact O|rewrite C; reflexivity]]. unfold cinv. cbn [ca_node ca_adj]. split; [exact D|]. split; [apply upop_nodup, N|].
        intros s. rewrite current_snoc, readded_snoc, udget_pop. destruct (list_eq_dec Z.eq_dec s x) as [->|]; [reflexivity|apply G].
      * rewrite Gx. cbn [bind]. eexists _, _. split; [reflexivity|]. split; [|apply outcomes_snoc; [exact O|rewrite C; reflexivity]]. split; [exact D|]. split; [exact N|].
        intros s. rewrite current_snoc, readded_snoc. destruct (list_eq_dec Z.eq_dec s x) as [->|]; [exact Gx|apply G].
Qed.
Lemma forM_nodes (l : list cnode) adj : forM (map ChNode l) (fun c adj => match c with ChNode n => Ret (udset adj (cn_name n) (ChNode n)) | ChData _ => Raise TypeError end) adj =
  Ret (fold_left (fun a n => udset a (cn_name n) (ChNode n)) l adj).
Proof. revert adj. induction l as [|n l IH]; intros adj; cbn; [reflexivity|apply IH]. Qed.
Lemma fold_nodes (l : list cnode) : NoDup (map cn_name l) -> forall adj, (forall n, In n l -> udget adj (cn_name n) = None) ->
  fold_left (fun a n => udset a (cn_name n) (ChNode n)) l adj = adj ++ map (fun n => (cn_name n, ChNode n)) l.
Proof.
  induction l as [|n l IH]; intros N adj H; [symmetry; apply app_nil_r|]. cbn [map] in N. inversion N as [|? ? NI N']; subst. cbn [fold_left map].
  assert (E : forall (t : list (ustr * child)) k v, udget t k = None -> udset t k v = t ++ [(k, v)]).
  { induction t as [|[k' v'] t IHt]; cbn; intros k v X; [reflexivity|]. destruct (ustr_eqb k k'); [discriminate|]. rewrite IHt by exact X. reflexivity. }
  rewrite IH; [|exact N'|].
  - rewrite E by (apply H; left; reflexivity). rewrite <- app_assoc. reflexivity.
  - intros m I. rewrite udget_set. destruct (list_eq_dec Z.eq_dec (cn_name m) (cn_name n)) as [X|]; [|apply H; right; exact I].
    exfalso. apply NI. rewrite <- X. apply in_map, I.
Qed.

(** ** str *)
Lemma flat_map_plain (q : Z) (s : ustr) : ~ In 92 s -> ~ In q s -> flat_map (fun c => if (c =? 92) || (c =? q) then [92; c] else [c]) s = s.
Proof.
  induction s as [|c s IH]; intros A B; [reflexivity|]. cbn [flat_map]. replace ((c =? 92) || (c =? q)) with false.
  - cbn [app]. rewrite IH; [reflexivity| |]; intros I; [apply A|apply B]; right; exact I.
  - symmetry. apply orb_false_iff. split; [destruct (Z.eqb_spec c 92) as [->|]; [exfalso; apply A; left; reflexivity|reflexivity]|
      destruct (Z.eqb_spec c q) as [->|]; [exfalso; apply B; left; reflexivity|reflexivity]].
Qed.
Definition esc (q : Z) (s : ustr) : ustr := flat_map (fun c => if (c =? 92) || (c =? q) then [92; c] else [c]) s.
Lemma flat_map_longer (q : Z) (s : ustr) : (length s <= length (esc q s))%nat /\ (In 92 s \/ In q s -> (length s < length (esc q s))%nat).
Proof.
  induction s as [|c s [L G]]; [split; [cbn; lia|intros [[]|[]]]|]. unfold esc in *. cbn [flat_map]. rewrite app_length. destruct ((c =? 92) || (c =? q)) eqn:X.
  - cbn [length]. split; [lia|]. intros _. lia.
  - cbn [length]. split; [lia|]. intros H. apply orb_false_iff in X. destruct X as [X1 X2]. rewrite Z.eqb_neq in X1, X2.
    assert (In 92 s \/ In q s) by (destruct H as [[H|H]|[H|H]]; [contradiction|left; exact H|contradiction|right; exact H]). specialize (G H0). lia.
Qed.
Lemma existsb_in c (s : ustr) : existsb (Z.eqb c) s = true <-> In c s.
Proof. rewrite existsb_exists. split; [intros (x & I & E); apply Z.eqb_eq in E; subst; exact I|intros I; exists c; split; [exact I|apply Z.eqb_refl]]. Qed.
Lemma repr_quotes s : py_repr s = 39 :: s ++ [39] <-> ~ In 39 s /\ ~ In 92 s.
Proof.
  unfold py_repr. split.
  - intros E. destruct (existsb (Z.eqb 39) s && negb (existsb (Z.eqb 34) s)) eqn:X; [discriminate|]. injection E as E. apply app_inj_tail in E. destruct E as [E _].
    pose proof (proj2 (flat_map_longer 39 s)) as L. unfold esc in L. rewrite E in L. split; intros I; (assert (length s < length s)%nat; [|lia]); apply L; auto.
  - intros [A B]. replace (existsb (Z.eqb 39) s) with false by (symmetry; destruct (existsb (Z.eqb 39) s) eqn:X; [apply existsb_in in X; contradiction|reflexivity]). cbn [andb].
    rewrite flat_map_plain by assumption. reflexivity.
Qed.
