(** Proofs that compiled expressions keep their values when more members are set. *)
From Verif Require Import Base SpecStream ModelBitBuffer ModelCalls ModelArray ModelSchema PyExpr ModelExpr ModelCompile CompileProofs CompileSound ModelEq SpecSchema ModelTypeInfo ModelAttributes SpecAttributes.

(** [w'] knows what [w] knows. *)
Record more (w w' : world) : Prop := {
  mo_name : forall n v, k_name w n = Ok v -> k_name w' n = Ok v;
  mo_func : forall n v, k_func w n = Ok v -> k_func w' n = Ok v;
  mo_attr : forall x n, k_attr w x n = k_attr w' x n;
  mo_method : forall x n, k_method w x n = k_method w' x n;
  mo_eq : forall x y, k_eq w x y = k_eq w' x y;
  mo_invert : forall x, k_invert w x = k_invert w' x
}.
Local Ltac run H w p := let E := fresh "E" in let v := fresh "v" in destruct (py_eval w p) as [v|] eqn:E; cbn [rbind] in H; [|discriminate H].

Lemma py_eval_more w w' : more w w' -> forall p v, py_eval w p = Ok v -> py_eval w' p = Ok v.
Proof.
  intros R.
  assert (Heq : forall v u, py_eq w v u = py_eq w' v u).
  { intros v u. unfold py_eq. destruct (as_int v), (as_int u); try reflexivity. destruct v; try apply (mo_eq _ _ R); destruct u; try apply (mo_eq _ _ R); reflexivity. }
  assert (Hcmp : forall c v u, py_cmp w c v u = py_cmp w' c v u) by (intros c v u; unfold py_cmp; rewrite Heq; reflexivity).
  fix IH 1. intros p v H. destruct p; cbn [py_eval] in H |- *.
  - exact H.
  - apply (mo_name _ _ R), H.
  - run H w p. rewrite (IH _ _ E). cbn [rbind]. destruct a; [exact H|]. cbn [py_attr] in *. rewrite <- (mo_attr _ _ R). exact H.
  - destruct p; try discriminate H; [apply (mo_func _ _ R), H|]. destruct a; [discriminate H|]. run H w p. rewrite (IH _ _ E). cbn [rbind]. rewrite <- (mo_method _ _ R). exact H.
  - run H w p1. run H w p2. rewrite (IH _ _ E), (IH _ _ E0). exact H.
  - run H w p. rewrite (IH _ _ E). exact H.
  - run H w p1. run H w p2. rewrite (IH _ _ E), (IH _ _ E0). exact H.
  - run H w p. rewrite (IH _ _ E). cbn [rbind]. rewrite <- H. unfold py_sign. destruct (as_int v0); [reflexivity|]. destruct s; try reflexivity. destruct v0; try reflexivity.
    symmetry. apply (mo_invert _ _ R).
  - run H w p1. run H w p2. rewrite (IH _ _ E), (IH _ _ E0). exact H.
  - run H w p1. run H w p2. rewrite (IH _ _ E), (IH _ _ E0). cbn [rbind]. rewrite <- Hcmp. exact H.
  - run H w p. rewrite (IH _ _ E). exact H.
  - run H w p1. rewrite (IH _ _ E). cbn [rbind]. destruct (truth v0); [apply (IH _ _ H)|exact H].
  - run H w p1. rewrite (IH _ _ E). cbn [rbind]. destruct (truth v0); [exact H|apply (IH _ _ H)].
  - run H w p2. rewrite (IH _ _ E). cbn [rbind]. destruct (truth v0); [apply (IH _ _ H)|apply (IH _ _ H)].
Qed.

Lemma attribute_more a b i v : attribute a i = Ok v -> attribute (a ++ b) i = Ok v.
Proof.
  unfold attribute. destruct (nth_error a i) as [x|] eqn:E; [|discriminate]. rewrite nth_error_app1 by (apply nth_error_Some; congruence). rewrite E. auto.
Qed.
Lemma worlds_more S ps a b idx : forall calls id, more (world_of S calls id ps a idx) (world_of S calls id ps (a ++ b) idx).
Proof.
  induction calls as [|calls IH]; intros id; constructor; try reflexivity.
  1,3: intros n v; cbn [world_of k_name]; destruct (name_ref S id n) as [[]|]; cbn [look]; auto using attribute_more.
  - intros n v H. discriminate H.
  - intros n v. cbn [world_of k_func]. destruct (func_of S id n) as [[t e]|]; [|auto]. destruct (code S id e) as [p|]; [|auto]. apply py_eval_more, IH.
Qed.

Section Emit.
Context (S : source) (calls : nat).
Lemma steady_eval i id e : steady i (eval S calls id e).
Proof.
  intros ps a b idx y _. unfold eval. destruct (code S id e) as [p|]; [|discriminate]. cbn [e_params e_fields e_index]. apply py_eval_more, worlds_more.
Qed.
Lemma steady_after {A} i id e (g : value -> res A) : steady i (fun v => x <-? eval S calls id e v ;; g x).
Proof.
  intros ps a b idx y H E. destruct (eval S calls id e {| e_params := ps; e_fields := a; e_index := idx |}) as [x|] eqn:Ex; [|discriminate E].
  rewrite (steady_eval i id e ps a b idx x H Ex). exact E.
Qed.

Lemma emit_field_steady id f g i : emit_field S calls id f = Some g -> field_steady i g.
Proof.
  unfold emit_field. destruct (emit_type S calls id _ (a_ty f)) as [ty|] eqn:Et; [|discriminate]. intros E. injection E as <-. split; cbn [f_ty f_opt f_arr f_con].
  - unfold emit_type in Et.
    assert (K : forall o, option_map kind_type o = Some ty -> match ty with TDyn _ len => steady i len | TObj _ args => Forall (steady i) args | _ => True end).
    { intros [[]|] E; try discriminate E; injection E as <-; exact I. }
    destruct (a_ty f) eqn:Ety; try (eapply K; exact Et).
    + destruct (dyn_signed _ _); [|discriminate Et]. injection Et as <-. apply steady_after.
    + destruct (src_enums S _) as [[b items]|]; [|discriminate Et]. destruct (base_kind b); [|discriminate Et]. injection Et as <-. exact I.
    + destruct (src_masks S _) as [b|]; [|discriminate Et]. destruct (base_kind b); [|discriminate Et]. injection Et as <-. exact I.
    + injection Et as <-. apply Forall_forall. intros x Hx. apply in_map_iff in Hx. destruct Hx as (e & <- & _). apply steady_eval.
  - destruct (a_auto f); [exact I|]. destruct (a_opt f); [apply steady_after|exact I].
  - destruct (a_arr f) as [[l p]|]; [|exact I]. destruct l; cbn [emit_length]; [exact I|exact I|apply steady_after].
  - destruct (a_con f); [apply steady_after|exact I].
Qed.

Lemma emit_steady : steady_schema (emit S calls).
Proof.
  intros id d E. unfold emit in E. destruct (src_types S id) as [c|]; [|discriminate E].
  pose proof (fun R H => emit_body_fields S calls (fun _ => True) R id (c_body c) d H E) as HD.
  assert (HA : Forall (fun _ : sfield => True) (body_fields (c_body c))) by (apply Forall_forall; auto).
  destruct d as [fs|selector cases default|fs].
  - intros i f Hf. pose proof (HD (field_steady i) (fun f g _ X => emit_field_steady id f g i X) HA) as HF. cbn [SpecSchema.decl_fields] in HF.
    exact (proj1 (Forall_forall _ _) HF f (nth_error_In _ _ Hf)).
  - split.
    + unfold emit_body in E. destruct (c_body c); try (destruct (all_of _ _); discriminate E).
      destruct (all_of _ _); [|discriminate E]. destruct (match default0 with None => Some None | Some o => option_map Some (emit_member S calls id o) end); [|discriminate E].
      injection E as <- _ _. apply steady_after.
    + pose proof (HD (field_steady 0) (fun f g _ X => emit_field_steady id f g 0 X) HA) as HF. cbn [SpecSchema.decl_fields ModelTypeInfo.decl_fields] in *. destruct HF as [H1 H2].
      unfold choice_fields. apply Forall_app. split.
      * clear -H1. induction H1 as [|[l [f|]] cs Hc _ IH]; cbn [flat_map snd app] in *; [constructor|constructor; assumption|exact IH].
      * destruct default as [[f|]|]; repeat constructor; apply H2.
  - exact (HD (field_steady 0) (fun f g _ X => emit_field_steady id f g 0 X) HA).
Qed.
End Emit.
