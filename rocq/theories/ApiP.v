(** * ApiP: what each call leaves alone, and the store of generators (C73) *)
From Coq Require Import ZArith List Bool Permutation.
Import ListNotations.
From Verif Require Import Num Vec Res Arena Orient Colliders Collide EntityM SystemM OrderP Spec ApiSpec ResP ArenaP FrameP StoreP ExecP Store2P.

Section Api.
  Context {T : Type} {N : Num T}.

  Lemma remove_collider_shape (s s' : system T) h : remove_collider s h = Ok s' -> exists cols, s' = s_set_cols s cols.
  Proof.
    unfold remove_collider. destruct (aremove _ _) as [[cols c]|]; intros H.
    - destruct (c_entity c) as [eh|]; [destruct (aget _ _); [discriminate|]|]; inv_ok H; subst; eexists; reflexivity.
    - inv_ok H. subst. exists (s_cols s'). destruct s'; reflexivity.
  Qed.

  Lemma call_frame ord (s s' : system T) o a : good_order ord -> reachable s -> exec ord s o = Ok (s', a) ->
    settings s' = new_settings s o /\
    (~ may_record o -> s_records s' = s_records s) /\
    (~ may_log o -> s_debug s' = s_debug s) /\
    (~ may_change_generators o -> forall g, get_generator s' g = get_generator s g) /\
    (~ may_change_colliders o -> forall c, get_collider s' c = get_collider s c) /\
    (~ may_change_entities o -> forall h, get_entity s' h = get_entity s h).
  Proof.
    intros Ho R H. apply reachable_Inv in R. unfold get_generator, get_collider, get_entity.
    destruct o as [src|h|h src|src|h|h src|ch t|g|h|dt|n|x|x]; simpl in H.
    - inv_ok H. inv_ok H. subst. destruct x as [s1 r]. unfold add_entity in E. destruct (entity_new_from src).
      + inv_ok E. inv_ok E. subst. simpl. unfold settings. simpl. tauto.
      + inv_ok E. subst. simpl. tauto.
    - inv_ok H. inv_ok H. subst. destruct x as [s1 b]. pose proof (remove_entity_effect ord s h Ho R) as P.
      destruct (aget (s_ents s) h) as [e|]; [destruct P as (s2 & P & _ & _ & _ & _ & _ & _ & _ & ents & cols & Es)|];
        rewrite P in E; inv_ok E; subst; simpl; try (subst s1; simpl); unfold settings; simpl; tauto.
    - inv_ok H. inv_ok H. subst. destruct x as [s1 b]. unfold update_entity in E.
      destruct (aget (s_ents s) h) as [e|]; [|inv_ok E; subst; simpl; tauto].
      destruct (update_from e src) as [[e1 w]|]; [|inv_ok E; subst; simpl; tauto].
      inv_ok E. destruct w; inv_ok E; [inv_ok E|]; subst; unfold settings; simpl; tauto.
    - inv_ok H. inv_ok H. subst. destruct x as [s1 r]. unfold add_collider in E. destruct (collider_new_from src).
      + inv_ok E. inv_ok E. subst. unfold settings. simpl. tauto.
      + inv_ok E. subst. simpl. tauto.
    - inv_ok H. inv_ok H. subst. apply remove_collider_shape in E. destruct E as (cols & ->). unfold settings. simpl. tauto.
    - inv_ok H. inv_ok H. subst. destruct x as [s1 b]. pose proof (update_collider_effect ord s h src Ho R) as P.
      destruct (aget (s_cols s) h) as [c|]; [|rewrite P in E; inv_ok E; subst; simpl; tauto].
      destruct (collider_update_from c src) eqn:Eu; cbv zeta in P; try (destruct P as (s2 & P & _ & (ents & Es) & _));
        rewrite P in E; inv_ok E; subst; unfold settings; simpl; tauto.
    - inv_ok H. inv_ok H. subst. destruct x as [s1 b]. pose proof (link_collider_effect ord s ch t Ho R) as P.
      destruct (aget (s_cols s) ch) as [c|]; [|rewrite P in E; inv_ok E; subst; simpl; tauto].
      destruct P as (P1 & P2).
      assert (D : match t with Some h => aget (s_ents s) h <> None | None => True end \/ exists h, t = Some h /\ aget (s_ents s) h = None).
      { destruct t as [h|]; [|tauto]. destruct (aget (s_ents s) h) eqn:Eh; [left; congruence|right; eauto]. }
      destruct D as [D|(h & -> & D)].
      + destruct (P2 D) as (s2 & P & _ & (ents & Es) & _). rewrite P in E. inv_ok E. subst. unfold settings. simpl. tauto.
      + rewrite (P1 D) in E. inv_ok E. subst. simpl. tauto.
    - inv_ok H. inv_ok H. subst. unfold add_generator in E. inv_ok E. inv_ok E. subst. unfold settings. simpl. tauto.
    - inv_ok H. subst. unfold remove_generator. destruct (aremove (s_gens s) h) as [[g x]|]; unfold settings; simpl; tauto.
    - inv_ok H. inv_ok H. subst. apply step_frame in E. destruct E as (_ & E2 & _ & E4 & E5 & E6). unfold settings. simpl. rewrite E2, E4, E5, E6. tauto.
    - inv_ok H. subst. unfold settings. simpl. tauto.
    - inv_ok H. subst. unfold settings. simpl. tauto.
    - inv_ok H. subst. unfold settings. simpl. tauto.
  Qed.

  Lemma add_generator_map (s : system T) g : reachable s -> exists s' h, add_generator s g = Ok (s', h) /\
    get_generator s h = None /\ get_generator s' h = Some g /\ (forall h', h' <> h -> get_generator s' h' = get_generator s h').
  Proof.
    intros R. apply reachable_Inv in R. destruct (ainsert_spec (s_gens s) g (inv_wg _ R)) as (a' & h & E & _ & _ & _ & A & B & C).
    exists (s_set_gens s a'), h. unfold add_generator. rewrite E. simpl. unfold get_generator. simpl. auto.
  Qed.
  Lemma remove_generator_map (s : system T) h : reachable s -> let r := remove_generator s h in
    snd r = get_generator s h /\ get_generator (fst r) h = None /\ (forall h', h' <> h -> get_generator (fst r) h' = get_generator s h').
  Proof.
    intros R. apply reachable_Inv in R. unfold remove_generator, get_generator. destruct (aget (s_gens s) h) as [g|] eqn:E.
    - destruct (aremove_spec _ _ _ (inv_wg _ R) E) as (a' & -> & _ & _ & A & B). simpl. auto.
    - rewrite (aremove_none _ _ E). simpl. auto.
  Qed.
  Lemma new_empty : (forall h, @get_entity T N system_new h = None) /\ (forall c, get_collider (@system_new T N) c = None) /\ (forall g, get_generator (@system_new T N) g = None) /\
    settings (@system_new T N) = (5, n_frac 1%Z 1000%positive, n_frac 1%Z 10%positive) /\ s_records (@system_new T N) = [] /\ s_debug (@system_new T N) = [].
  Proof.
    unfold get_entity, get_collider, get_generator. simpl. repeat split; intros; rewrite ?aget_anew; reflexivity.
  Qed.
End Api.

Lemma defaults_documented L (N := F32 L) (radius : f32) :
  entity_new = doc_entity /\ null_new = mkNull None vzero n0 mzero /\
  sphere_new radius = mkSphere None vzero radius n0 doc_sphere_material /\
  (exists m, plane_new = mkPlane None vzero (mkV n0 n1 n0) n0 m /\ mt_rest m = n1 /\ mt_dyn m = n_frac 3%Z 10%positive) /\
  (exists m, mesh_new = mkMesh None vzero [] [] [] m /\ mt_rest m = n1 /\ mt_dyn m = n_frac 3%Z 10%positive) /\
  (exists m mass, box_new = mkBox None vzero vzero (mkV n1 n1 n1) mass m /\ mt_rest m = n1 /\ mt_dyn m = n_frac 3%Z 10%positive).
Proof.
  assert (E : qfrom_scaled_axis (@vzero f32 N) = qident).
  { unfold qfrom_scaled_axis. cbv zeta. match goal with |- (if ?b then _ else _) = _ => assert (B : b = true) by (vm_compute; reflexivity) end. rewrite B. exact eq_refl. }
  split; [unfold entity_new, doc_entity, orient_new; rewrite E; exact eq_refl|]. do 2 (split; [reflexivity|]). split; [|split]; repeat eexists. Qed.
Lemma material_thr (a b : material f32) L : a = b -> @n_eq f32 (F32 L) (mt_thr a) (mt_thr b) = @n_eq f32 (F32 L) (mt_thr a) (mt_thr a).
Proof. now intros <-. Qed.
Lemma defaults_friction L (N := F32 L) : pl_mat plane_new <> doc_material /\ me_mat mesh_new <> doc_material /\ bx_mat box_new <> doc_material.
Proof. repeat split; intros H; apply (material_thr _ _ L) in H; vm_compute in H; discriminate. Qed.
Lemma defaults_box_mass L (N := F32 L) : bx_mass (@box_new f32 N) <> n1.
Proof. intros H. apply (f_equal (fun x => n_eq x n1)) in H. vm_compute in H. discriminate. Qed.
