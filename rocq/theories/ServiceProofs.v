(** Calls and messages reach the other side unchanged. *)
From Verif Require Import Base SpecStream SpecHistory SpecArray ModelBitBuffer ModelWriter ModelReader ModelArray ModelSchema ModelJson SpecSchema ModelService SpecService
  ObjectProofs SerialProofs CapProofs CreatorProofs.

Section Proofs.
Context (s : schema) (depth : nat) {St Cx : Type}.
Hypothesis HS : wf_schema s.

Lemma sent_arrives ty p : sendable s depth ty p ->
  (exists e, cannot_write s depth p e /\ byte_array s depth (new_service_data p) = Raise e) \/
  exists l d, can_write s depth p /\ byte_array s depth (new_service_data p) = Ok (l, d) /\ from_data s depth ty l = Ok (arrives s p).
Proof.
  destruct ty as [id|], p as [l|v]; try (intros H; exact (False_ind _ H)).
  - intros (HR & Hid & Hps & Hv & Hx). cbn [new_service_data byte_array]. unfold written_bytes.
    destruct (obj_write s depth v new_writer) as [[[]|e] w] eqn:Ew.
    + right. exists (w_bytes w), (ObjectData v (Some (w_bytes w))). split; [intros e H; unfold cannot_write in H; rewrite Ew in H; discriminate H|].
      split; [reflexivity|]. unfold from_data. assert (Ho : opened_on w {| r_buffer := w_bytes w; r_bitsize := zlen (w_bytes w) * 8; r_pos := 0 |})
        by (left; reflexivity).
      unfold new_reader. cbn [rbind]. pose proof (capped_survives s depth HS v id [] HR Hid Hps Hv _ _ _ reachable_new Hx Ew Ho) as H.
      apply (opened_start _ _ w _ Ho) in H. cbn [map] in H. rewrite H. reflexivity.
    + left. exists e. split; [unfold cannot_write; rewrite Ew; reflexivity|reflexivity].
  - intros _. right. exists l, (RawData l). split; [intros e []|]. split; reflexivity.
Qed.

Lemma cannot_not p e : cannot_write s depth p e -> ~ can_write s depth p.
Proof. intros H H'. exact (H' e H). Qed.

Lemma map_get_none : forall methods i name, ~ In name (map m_name methods) -> method_map_get i methods name = None.
Proof.
  induction methods as [|m ms IH]; intros i name H; [reflexivity|]. cbn [method_map_get]. cbn in H. rewrite IH by tauto.
  destruct (text_eqb (m_name m) name) eqn:E; [|reflexivity]. apply text_eqb_eq in E. tauto.
Qed.

Lemma map_get_some : forall methods j i m, NoDup (map m_name methods) -> nth_error methods i = Some m ->
  method_map_get j methods (m_name m) = Some ((j + i)%nat, m).
Proof.
  induction methods as [|m0 ms IH]; intros j i m H E; [destruct i; discriminate E|]. cbn in H. inversion H; subst. cbn [method_map_get].
  destruct i as [|i]; cbn in E.
  - injection E as ->. rewrite map_get_none by assumption. rewrite (proj2 (text_eqb_eq _ _) eq_refl). rewrite Nat.add_0_r. reflexivity.
  - rewrite (IH _ _ _ H3 E). f_equal. f_equal. lia.
Qed.

Lemma call_unknown methods (impl : nat -> payload -> Cx -> M St payload) name data ctx st : ~ In name (map m_name methods) ->
  service_call s depth methods impl name data ctx st = (Raise ServiceExc, st).
Proof. intros H. unfold service_call. rewrite map_get_none by exact H. reflexivity. Qed.

Lemma call_transparent methods (impl : nat -> payload -> Cx -> M St payload) i m req ctx st :
  NoDup (map m_name methods) -> nth_error methods i = Some m -> sendable s depth (m_request m) req ->
  (forall r st', impl i (arrives s req) ctx st = (Ok r, st') -> sendable s depth (m_response m) r) ->
  call_outcome s depth req (fun p => impl i p ctx) st (client_call s depth (direct s depth methods impl) m req ctx st).
Proof.
  intros Hnd Hi Hreq Hresp. unfold client_call, direct, service_call. rewrite (map_get_some _ _ _ _ Hnd Hi). cbn [Nat.add].
  unfold service_method, bind, lift.
  destruct (sent_arrives _ _ Hreq) as [(e & He & E)|(l & d & Hw & E & E2)]; rewrite E.
  - apply request_refused. exact He.
  - cbn [fst]. rewrite E2. destruct (impl i (arrives s req) ctx st) as [[r|e] st'] eqn:Ei.
    + unfold ret. destruct (sent_arrives _ _ (Hresp _ _ eq_refl)) as [(e & He & E3)|(l2 & d2 & Hw2 & E3 & E4)]; rewrite E3.
      * eapply response_refused; eauto.
      * cbn [fst]. rewrite E4. eapply call_answered; eauto.
    + eapply call_failed; eauto.
Qed.

Notation callback := (list Z -> payload -> M St unit).
Definition image (x : Z * (message * callback)) : Z * list Z * (list Z -> list Z -> M St unit) :=
  (fst x, msg_topic (fst (snd x)), on_raw s depth (fst (snd x)) (snd (snd x))).

Lemma filter_image id (live : list (Z * (message * callback))) :
  filter (fun x => negb (fst (fst x) =? id)) (map image live) = map image (filter (fun x => negb (fst x =? id)) live).
Proof. induction live as [|x live IH]; [reflexivity|]. cbn [map filter image fst]. destruct (fst x =? id); cbn [negb map]; rewrite IH; reflexivity. Qed.

Lemma broker_state : forall (steps : list (@sub_step St Cx)) n live,
  exists b live', for_each (sub_run s depth) steps {| b_next := n; b_subs := map image live |} = (Ok tt, b) /\
    b_subs b = map image live' /\ in_force n live steps = map snd live'.
Proof.
  induction steps as [|x steps IH]; intros n live.
  - exists {| b_next := n; b_subs := map image live |}, live. repeat split; reflexivity.
  - destruct x as [m cb ctx|id]; cbn [for_each in_force sub_run].
    + unfold bind, subscribe, broker_subscribe, ret. cbn [b_next b_subs]. change [(n, msg_topic m, on_raw s depth m cb)] with (map image [(n, (m, cb))]).
      rewrite <- map_app. apply IH.
    + unfold bind, unsubscribe, broker_unsubscribe. cbn [b_next b_subs]. rewrite filter_image. apply IH.
Qed.

Lemma deliver_all m p (Hp : sendable s depth (msg_type m) p) l (ctx : Cx) n live :
  from_data s depth (msg_type m) l = Ok (arrives s p) ->
  (forall m' cb, In (m', cb) (map snd live) -> msg_topic m' = msg_topic m -> msg_type m' = msg_type m) ->
  forall st, broker_publish {| b_next := n; b_subs := map image live |} (msg_topic m) l ctx st =
    call_all (msg_topic m) (arrives s p) (map snd live) st.
Proof.
  intros E. unfold broker_publish. cbn [b_subs]. induction live as [|[i [m' cb]] live IH]; intros H st; [reflexivity|]. cbn [map for_each call_all fst snd image].
  assert (Hr : forall m' cb, In (m', cb) (map snd live) -> msg_topic m' = msg_topic m -> msg_type m' = msg_type m) by (intros; eapply H; [right; eassumption|assumption]).
  destruct (text_eqb (msg_topic m') (msg_topic m)) eqn:Et.
  - apply text_eqb_eq in Et. unfold on_raw at 1. unfold bind, lift.
    rewrite (H m' cb (or_introl eq_refl) Et), E. destruct (cb (msg_topic m) (arrives s p) st) as [[[]|e] st']; [|reflexivity]. apply IH. exact Hr.
  - unfold bind, ret. apply IH. exact Hr.
Qed.

Lemma published (steps : list (@sub_step St Cx)) b m p (ctx : Cx) st : sendable s depth (msg_type m) p ->
  for_each (sub_run s depth) steps new_broker = (Ok tt, b) ->
  (forall m' cb, In (m', cb) (in_force 0 [] steps) -> msg_topic m' = msg_topic m -> msg_type m' = msg_type m) ->
  publish_outcome s depth (msg_topic m) p (in_force 0 [] steps) st (publish s depth (broker_publish b) m p ctx st).
Proof.
  intros Hp Hb Hs. destruct (broker_state steps 0 []) as (b' & live & E0 & El & Ei). cbn [map] in E0. unfold new_broker in Hb. rewrite E0 in Hb.
  injection Hb as <-. rewrite Ei in *. destruct b' as [n subs]. cbn [b_subs] in El. subst subs.
  destruct (sent_arrives _ _ Hp) as [(e & He & E)|(l & d & Hw & E & E2)]; destruct p as [l0|v]; cbn [new_service_data byte_array] in E.
  - discriminate E.
  - unfold publish, bind, lift. destruct (written_bytes s depth v); [discriminate E|]. cbn [rbind] in E. injection E as ->. apply message_refused. exact He.
  - injection E as -> _. unfold publish. rewrite (deliver_all m (PBytes l) Hp l ctx n live E2 Hs). apply message_delivered. exact Hw.
  - unfold publish, bind, lift. destruct (written_bytes s depth v); [|discriminate E]. cbn [rbind] in E. injection E as -> _.
    rewrite (deliver_all m (PObj v) Hp l ctx n live E2 Hs). apply message_delivered. exact Hw.
Qed.
End Proofs.

Lemma byte_array_stays s depth d l d' : byte_array s depth d = Ok (l, d') -> byte_array s depth d' = Ok (l, d') /\ zserio_object d' = zserio_object d.
Proof.
  destruct d as [v [x|]|x]; cbn [byte_array]; intros E.
  - injection E as <- <-. split; reflexivity.
  - destruct (written_bytes s depth v) as [x|]; [|discriminate E]. cbn [rbind] in E. injection E as <- <-. split; reflexivity.
  - injection E as <- <-. split; reflexivity.
Qed.
