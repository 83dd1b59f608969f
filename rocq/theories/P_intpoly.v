(** Polynomial replacement in integer records. *)
From Verif Require Export P_polyrep.
Local Open Scope Z_scope.

Lemma poly_int_step (N : Num) regress spikes window degree dec (s : list N * Z) i : 11 <= i ->
  poly_step regress DInt spikes window degree dec s i =
  poly_step (fun y x t d => let* v := regress y x t d in storable DInt (MVal v)) DFloat spikes window degree dec s i.
Proof.
  intros Hi. destruct s as [m a]. unfold poly_step. rewrite (proj2 (Z.eqb_neq i 0)) by lia.
  destruct (Z.leb_spec i 10); [lia|]. rewrite andb_false_r. 
  assert (H0 : forall sl xs, (let* v := create_model regress sl xs i degree in let* v := storable DInt (MVal v) in let* m0 := setz m i v in Ok (m0, a)) =
    (let* v := create_model (fun y x t d => let* v := regress y x t d in storable DInt (MVal v)) sl xs i degree in
     let* v := storable DFloat (MVal v) in let* m0 := setz m i v in Ok (m0, a))).
  { intros sl xs. unfold create_model. 
    repeat match goal with |- context [if ?b then _ else _] => destruct b; [try reflexivity|try reflexivity] end.
    destruct (regress sl xs i degree) as [v|e]; [|reflexivity]. cbn [bind]. destruct (storable DInt (MVal v)); reflexivity. }
  destruct (_ && _); apply H0.
Qed.
Lemma poly_int (N : Num) regress (v : list N) idx window degree dec r : 0 < window -> 0 <= dec ->
  StronglySorted Z.lt idx -> (forall i, In i idx -> 11 <= i < zlen v) ->
  polynomial_replacement regress DInt v idx window degree dec = Ok r ->
  length r = length v /\
  (forall i, 0 <= i < zlen v -> ~ In i idx -> nth (Z.to_nat i) r nnan = nth (Z.to_nat i) v nnan) /\
  (forall i, In i idx -> let lo := if i <? window then 0 else i - window in
     exists x, regress (firstn (Z.to_nat (i - lo)) (skipn (Z.to_nat lo) r)) (zrange lo i) i degree = Ok x /\
       nisnan x = false /\ nth (Z.to_nat i) r nnan = ntrunc x).
Proof.
  intros Hw Hd HS HB E.
  assert (E' : (let* s := foldM (poly_step regress DInt idx window degree dec) (v, 0) idx in Ok (around_arr DInt (fst s) dec)) = Ok r).
  { unfold polynomial_replacement in E. destruct idx as [|i [|j idx]]; [exact E | discriminate | exact E]. }
  apply bind_ok in E'. destruct E' as ([m a] & Em & Er). cbn [fst around_arr] in Er.
  rewrite (proj2 (Z.leb_le 0 dec) Hd) in Er. injection Er as <-.
  assert (HE : forall l s, (forall i, In i l -> 11 <= i) ->
    foldM (poly_step regress DInt idx window degree dec) s l =
    foldM (poly_step (fun y x t d => let* v := regress y x t d in storable DInt (MVal v)) DFloat idx window degree dec) s l).
  { induction l as [|i l IH]; intros s Hl; [reflexivity|]. cbn [foldM]. rewrite poly_int_step by (apply Hl; left; reflexivity).
    destruct (poly_step _ DFloat _ _ _ _ s i) as [s'|e]; [|reflexivity]. cbn [bind]. apply IH. intros j Hj. apply Hl. right. exact Hj. }
  rewrite HE in Em by (intros i Hi; apply HB in Hi; lia).
  destruct (poly_large_fold N _ idx window degree dec Hw idx v 0 m a HS HB Em) as (H1 & H2 & H3).
  split; [exact H1|]. split; [intros i Hi Hn; apply H2; rewrite Z2Nat.id by lia; exact Hn|].
  intros i Hi lo. specialize (H3 i Hi). cbv zeta in H3. fold lo in H3. apply bind_ok in H3. destruct H3 as (x & Ex & H3).
  exists x. split; [exact Ex|]. cbn [storable] in H3. destruct (nisnan x) eqn:Hx; [discriminate|]. injection H3 as <-. split; reflexivity.
Qed.
