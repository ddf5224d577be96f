(** Printing a skip list, part 1: no node with key math.inf has a next. *)
From Verif Require Import Base SkipModel SkipSpec SkipProofs SkipProofs2.

Lemma while_inv {S B} (I : S -> Prop) (Q : B -> Prop) (body : S -> res (ctl S B)) :
  (forall s s', I s -> body s = Ret (Next s') -> I s') -> (forall s r, I s -> body s = Ret (Break r) -> Q r) ->
  forall fuel s r, I s -> while_loop fuel body s = Ret r -> Q r.
Proof.
  intros HN HB. induction fuel as [|f IH]; intros s r Hs; [discriminate|]. cbn [while_loop]. destruct (body s) as [[s'|r']| |] eqn:E; try discriminate.
  - apply IH. apply (HN s s' Hs E).
  - intros [= <-]. apply (HB s r' Hs E).
Qed.
Lemma bind_ret {A B} (m : res A) (f : A -> res B) r : bind m f = Ret r -> exists a, m = Ret a /\ f a = Ret r.
Proof. destruct m; try discriminate. cbn. eauto. Qed.
Lemma lget_mem {V} (a : list V) i v : lget a i = Ret v -> In v a.
Proof. unfold lget, aget. set (j := if i <? 0 then i + len a else i). destruct ((j <? 0) || (len a <=? j)); [discriminate|]. destruct (nth_error a (Z.to_nat j)) eqn:E; [|discriminate]. intros [= <-]. eapply nth_error_In. exact E. Qed.

Section Pinf.
  Context {D : Type}.
  Notation heap := (list (snode D)).
  Definition pinf_ok (h : heap) : Prop := forall a c, nth_error h a = Some c -> s_key c = PInf -> s_next c = None.
  Definition lowp (h : heap) (a : nat) : Prop := exists c, nth_error h a = Some c /\ s_key c <> PInf.
  Lemma pinf_set h a q : pinf_ok h -> lowp h a -> pinf_ok (ssetnext h a q).
  Proof.
    intros P (c & E & Ne) x y Hy Ky. rewrite set_get in Hy. destruct (nth_error h x) as [z|] eqn:Ez; [|discriminate]. destruct (Nat.eqb_spec x a) as [->|N].
    - injection Hy as <-. cbn in Ky. congruence.
    - injection Hy as <-. apply (P x z Ez Ky).
  Qed.
  Lemma lowp_set h a q x : lowp h x -> lowp (ssetnext h a q) x.
  Proof. intros (c & E & Ne). unfold lowp. rewrite set_get, E. destruct (x =? a)%nat; eexists; split; try reflexivity; cbn; exact Ne. Qed.
  Lemma lowp_app h e x : lowp h x -> lowp (h ++ e) x.
  Proof. intros (c & E & Ne). exists c. split; [|exact Ne]. rewrite nth_error_app1; [exact E|]. apply nth_error_Some. congruence. Qed.
  Lemma pinf_app h e : pinf_ok h -> (forall c, In c e -> s_key c = PInf -> s_next c = None) -> pinf_ok (h ++ e).
  Proof. intros P Q a c E. destruct (Nat.ltb_spec a (length h)); [rewrite nth_error_app1 in E by lia; apply (P a c E)|]. rewrite nth_error_app2 in E by lia. apply nth_error_In in E. apply Q, E. Qed.
  Lemma pinf_level st : pinf_ok (k_heap st) -> pinf_ok (k_heap (@add_level D st)).
  Proof. intros P. cbn [add_level k_heap]. apply pinf_app; [exact P|]. intros c [<-|[<-|[]]]; cbn; [reflexivity|discriminate]. Qed.
  Lemma deref_some h p c : @sderef D h p = Ret c -> exists a, p = Some a /\ nth_error h a = Some c.
  Proof. destruct p as [a|]; [|discriminate]. cbn. destruct (nth_error h a) eqn:E; [|discriminate]. intros [= <-]. eauto. Qed.

  Lemma path_low (st : skip D) key path : pinf_ok (k_heap st) -> skip_path st key = Ret path -> forall a, In a path -> lowp (k_heap st) a.
  Proof.
    intros P. unfold skip_path. apply (while_inv (fun s : list nat * option nat => forall a, In a (fst s) -> lowp (k_heap st) a) (fun path => forall a, In a path -> lowp (k_heap st) a)).
    - intros (p, node) s' I E. destruct node as [a|]; [|discriminate]. apply bind_ret in E as (n & En & E). apply bind_ret in E as (nx & Enx & E). destruct (xge (s_key nx) key); injection E as <-; cbn [fst] in *; [|exact I].
      intros x Hx. apply in_app_iff in Hx as [Hx|[<-|[]]]; [apply I, Hx|]. apply deref_some in En as (a' & [= <-] & En). exists n. split; [exact En|]. intros X. apply (P a n En) in X. rewrite X in Enx. discriminate.
    - intros (p, node) r I E. destruct node as [a|]; [|injection E as <-; exact I]. apply bind_ret in E as (n & En & E). apply bind_ret in E as (nx & Enx & E). destruct (xge (s_key nx) key); discriminate.
    - intros a [].
  Qed.
  Lemma insert_pinf (st : skip D) key data flips st' : pinf_ok (k_heap st) -> skip_insert st key data flips = Ret st' -> pinf_ok (k_heap st').
  Proof.
    intros P E. unfold skip_insert in E. apply bind_ret in E as (path & Ep & E). assert (LP := path_low st key path P Ep). apply bind_ret in E as (tip & Et & E). apply bind_ret in E as (n & En & E). apply bind_ret in E as (st2 & E2 & E). injection E as <-. cbn [k_heap].
    apply lget_mem in Et. revert E2.
    apply (while_inv (fun s : skip D * nat * Z => let '(st, _, _) := s in pinf_ok (k_heap st) /\ forall a, In a path -> lowp (k_heap st) a) (fun st : skip D => pinf_ok (k_heap st))).
    - intros ((s, b), level) s' (I1 & I2) E. destruct (flips _ && _); [|discriminate]. apply bind_ret in E as ((s1, prev) & E1 & E). apply bind_ret in E as (m & Em & E). injection E as <-. cbn [k_heap].
      assert (X : pinf_ok (k_heap s1) /\ (forall a, In a path -> lowp (k_heap s1) a) /\ lowp (k_heap s1) prev).
      { destruct (level =? k_levels st).
        - cbn [add_level k_head] in E1. injection E1 as <- <-. split; [apply pinf_level, I1|]. split; [intros a Ha; apply lowp_app, I2, Ha|]. exists (SN NInf None (Some (length (k_heap s))) (k_head s)). cbn [add_level k_heap]. split; [|discriminate]. rewrite nth_error_app2 by lia. replace (S (length (k_heap s)) - length (k_heap s))%nat with 1%nat by lia. reflexivity.
        - apply bind_ret in E1 as (pv & Epv & E1). injection E1 as <- <-. apply lget_mem in Epv. auto. }
      destruct X as (X1 & X2 & X3). split; [apply pinf_set; [apply pinf_app; [exact X1|intros c [<-|[]]; discriminate]|apply lowp_app, X3]|]. intros a Ha. apply lowp_set, lowp_app, X2, Ha.
    - intros ((s, b), level) r (I1 & I2) E. destruct (flips _ && _); [|injection E as <-; exact I1]. apply bind_ret in E as ((s1, prev) & E1 & E). apply bind_ret in E as (m & Em & E). discriminate.
    - cbn [k_heap]. split; [apply pinf_set; [apply pinf_app; [exact P|intros c [<-|[]]; discriminate]|apply lowp_app, LP, Et]|]. intros a Ha. apply lowp_set, lowp_app, LP, Ha.
  Qed.
  Lemma extract_pinf (st : skip D) key r st' : pinf_ok (k_heap st) -> skip_extract st key = Ret (r, st') -> pinf_ok (k_heap st').
  Proof.
    intros P E. unfold skip_extract in E. apply bind_ret in E as (path & Ep & E). assert (LP := path_low st key path P Ep). apply bind_ret in E as (tip & Et & E). apply bind_ret in E as (n & En & E). apply bind_ret in E as (nx & Enx & E).
    destruct (negb (xeq (s_key nx) key)); [discriminate|]. apply bind_ret in E as (h & Eh & E). apply bind_ret in E as (((hd, tl), lv) & Eq & E). injection E as _ <-.
    assert (PH : pinf_ok h).
    { clear Eq. revert Eh. apply (while_inv (fun s : heap * Z => pinf_ok (fst s) /\ forall a, In a path -> lowp (fst s) a) pinf_ok).
      - intros (h1, level) s' (I1 & I2) E. destruct (0 <=? level); [|discriminate]. apply bind_ret in E as (p & E1 & E). apply bind_ret in E as (m & Em & E). apply bind_ret in E as (mx & Emx & E). destruct (xeq (s_key mx) key); [|discriminate]. injection E as <-. cbn [fst] in *. apply lget_mem in E1. split; [apply pinf_set; [exact I1|apply I2, E1]|]. intros a Ha. apply lowp_set, I2, Ha.
      - intros (h1, level) r' (I1 & I2) E. destruct (0 <=? level); [|injection E as <-; exact I1]. apply bind_ret in E as (p & E1 & E). apply bind_ret in E as (m & Em & E). apply bind_ret in E as (mx & Emx & E). destruct (xeq (s_key mx) key); [discriminate|]. injection E as <-. exact I1.
      - split; [exact P|exact LP]. }
    match goal with |- context [if ?b then _ else _] => destruct b end; [apply pinf_level|]; exact PH.
  Qed.
  Lemma run_pinf ops : forall (st st' : skip D) outs, pinf_ok (k_heap st) -> skip_run st ops = Ret (st', outs) -> pinf_ok (k_heap st').
  Proof.
    induction ops as [|o ops IH]; intros st st' outs P E; [injection E as <- _; exact P|]. cbn [skip_run] in E. apply bind_ret in E as ((st1, r) & E1 & E). apply bind_ret in E as ((st2, rs) & E2 & E). injection E as <- _. apply (IH st1 st2 rs); [|exact E2].
    destruct o as [k d flips|k|k|]; cbn [skip_step] in E1.
    - apply bind_ret in E1 as (s & E1 & Q). injection Q as <- _. eapply insert_pinf; eauto.
    - destruct (skip_extract st k) as [((x, d), s)|e|] eqn:Ex; [|destruct e; try discriminate; injection E1 as <- _; exact P|discriminate]. apply extract_pinf in Ex; [|exact P]. destruct x; injection E1 as <- _; exact Ex.
    - apply bind_ret in E1 as (b & E1 & Q). injection Q as <- _. exact P.
    - injection E1 as <- _. exact P.
  Qed.
  Lemma new_pinf : pinf_ok (k_heap (@skip_new D)).
  Proof. apply pinf_level. intros [|a] c; discriminate. Qed.
End Pinf.
