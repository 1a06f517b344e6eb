(** write accepts every object that has an encoding and satisfies the checks. *)
From Verif Require Import Base SpecBits SpecStream SpecArray ModelBitBuffer ModelBuiltin ModelBitsizeof ModelWriter ModelCalls ModelArray ModelSchema
  ModelSerialization SpecSchema SpecChecks BitsProofs WriterProofs VarProofs CallProofs HistoryProofs BuiltinProofs PackedProofs ObjectProofs ChecksProofs SpecWire WirePack WireProofs.
Ltac Zify.zify_post_hook ::= Z.div_mod_to_equations.

Definition takes (m : M writer unit) (toks : option (list token)) : Prop :=
  forall w pre ts bs, wholds w pre -> toks = Some ts -> layout (length pre) ts = Some bs -> exists w', m w = (Ok tt, w') /\ wholds w' (pre ++ bs).
Definition ctakes (wr : ctxmap -> M writer ctxmap) (toks : option (list token)) : Prop :=
  forall cm w pre ts bs, wholds w pre -> toks = Some ts -> layout (length pre) (fst (resolve cm ts)) = Some bs ->
  exists w', wr cm w = (Ok (snd (resolve cm ts)), w') /\ wholds w' (pre ++ bs).
Definition readies (ctx : ctxmap -> res ctxmap) (toks : option (list token)) : Prop := forall cm c ts, toks = Some ts -> inits cm ts = Ok c -> ctx cm = Ok c.
Definition only_plain (t : option (list token)) : Prop := forall ts, t = Some ts -> no_ints ts.

Lemma layout_split a b p bs : layout p (a ++ b) = Some bs -> exists x y, bs = x ++ y /\ layout p a = Some x /\ layout (p + length x) b = Some y.
Proof.
  rewrite layout_app. destruct (layout p a) as [x|]; cbn [obind]; [|discriminate]. destruct (layout (p + length x) b) as [y|] eqn:E; cbn [obind]; [|discriminate].
  intros H. injection H as <-. eauto.
Qed.
Lemma both_some a b ts : both a b = Some ts -> exists x y, a = Some x /\ b = Some y /\ ts = x ++ y.
Proof. unfold both. destruct a; cbn [obind]; [|discriminate]. destruct b; cbn [obind]; [|discriminate]. intros E. injection E as <-. eauto. Qed.
Lemma only_both a b : only_plain a -> only_plain b -> only_plain (both a b).
Proof. intros A B ts E. destruct (both_some _ _ _ E) as (x & y & Ea & Eb & ->). apply Forall_app. split; [exact (A _ Ea)|exact (B _ Eb)]. Qed.

Lemma takes_ret : takes (ret tt) (Some []).
Proof. intros w pre ts bs Hw E L. injection E as <-. injection L as <-. exists w. rewrite app_nil_r. auto. Qed.
Lemma takes_call c : wf_call c -> takes (run_wcall c) (Some [KCall c]).
Proof.
  intros Hc w pre ts bs Hw E L. injection E as <-. cbn [layout] in L. pose proof (run_wcall_refines c w pre Hc Hw) as H.
  destruct (call_bits (length pre) c) as [b|]; [|discriminate L]. cbn [obind] in L. injection L as <-. rewrite app_nil_r. exact H.
Qed.
Lemma takes_seq m1 m2 t1 t2 : takes m1 t1 -> takes m2 t2 -> takes (m1 ;;; m2) (both t1 t2).
Proof.
  intros H1 H2 w pre ts bs Hw E L. destruct (both_some _ _ _ E) as (x & y & E1 & E2 & ->). destruct (layout_split _ _ _ _ L) as (b1 & b2 & -> & L1 & L2).
  destruct (H1 _ _ _ _ Hw E1 L1) as (w1 & R1 & Hw1). rewrite <- app_length in L2. destruct (H2 _ _ _ _ Hw1 E2 L2) as (w2 & R2 & Hw2).
  exists w2. unfold bind. rewrite R1. split; [exact R2|]. rewrite app_assoc. exact Hw2.
Qed.
Lemma takes_offset o e : takes (writer_alignto 8 ;;; p <- gets w_pos ;; lift (check_offset o e p)) (x <-! given_by (off_get o e) ;; Some [KCall (WAlign 8); KOffset x]).
Proof.
  intros w pre ts bs Hw E L. destruct (off_get o e) as [x|] eqn:Eo; [|discriminate E]. cbn [given_by obind] in E. injection E as <-.
  change [KCall (WAlign 8); KOffset x] with ([KCall (WAlign 8)] ++ [KOffset x]) in L. destruct (layout_split _ _ _ _ L) as (b1 & b2 & -> & L1 & L2).
  destruct (takes_call (WAlign 8) ltac:(cbn; lia) _ _ _ _ Hw eq_refl L1) as (w1 & R1 & Hw1). cbn [layout] in L2. rewrite <- app_length in L2.
  destruct (Z.eqb_spec (Z.of_nat (length (pre ++ b1))) (8 * x)) as [Ex|]; [|discriminate L2]. injection L2 as <-. rewrite app_nil_r.
  exists w1. split; [|exact Hw1]. cbn [run_wcall] in R1. unfold bind. rewrite R1. cbn [gets]. unfold lift, check_offset. rewrite Eo. cbn [rbind].
  destruct (wholds_length _ _ Hw1) as (Hl & _). rewrite Hl. unfold bytes_to_bits. rewrite (proj2 (Z.eqb_eq _ _)) by lia. reflexivity.
Qed.
Lemma takes_ext m m' t : (forall w, m w = m' w) -> takes m' t -> takes m t.
Proof. intros X H w pre ts bs Hw E L. rewrite X. exact (H _ _ _ _ Hw E L). Qed.

Lemma ctakes_ret : ctakes (fun cm => ret cm) (Some []).
Proof. intros cm w pre ts bs Hw E L. injection E as <-. injection L as <-. exists w. rewrite app_nil_r. auto. Qed.
Lemma ctakes_u m t : only_plain t -> takes m t -> ctakes (fun cm => m ;;; ret cm) t.
Proof.
  intros P H cm w pre ts bs Hw E L. rewrite (resolve_plain cm ts (P _ E)) in L |- *. destruct (H _ _ _ _ Hw E L) as (w1 & R & Hw1). exists w1. unfold bind. rewrite R. auto.
Qed.
Lemma ctakes_useq m wr t1 t2 : only_plain t1 -> takes m t1 -> ctakes wr t2 -> ctakes (fun cm => m ;;; wr cm) (both t1 t2).
Proof.
  intros P H1 H2 cm w pre ts bs Hw E L. destruct (both_some _ _ _ E) as (x & y & E1 & E2 & ->). rewrite resolve_app, (resolve_plain cm x (P _ E1)) in L |- *. cbn [fst snd] in *.
  destruct (layout_split _ _ _ _ L) as (b1 & b2 & -> & L1 & L2). destruct (H1 _ _ _ _ Hw E1 L1) as (w1 & R1 & Hw1). rewrite <- app_length in L2.
  destruct (H2 _ _ _ _ _ Hw1 E2 L2) as (w2 & R2 & Hw2). exists w2. unfold bind. rewrite R1. split; [exact R2|]. rewrite app_assoc. exact Hw2.
Qed.
Lemma ctakes_seq wr1 wr2 t1 t2 : ctakes wr1 t1 -> ctakes wr2 t2 -> ctakes (fun cm => c <- wr1 cm ;; wr2 c) (both t1 t2).
Proof.
  intros H1 H2 cm w pre ts bs Hw E L. destruct (both_some _ _ _ E) as (x & y & E1 & E2 & ->). rewrite resolve_app in L |- *. cbn [fst snd] in *.
  destruct (layout_split _ _ _ _ L) as (b1 & b2 & -> & L1 & L2). destruct (H1 _ _ _ _ _ Hw E1 L1) as (w1 & R1 & Hw1). rewrite <- app_length in L2.
  destruct (H2 _ _ _ _ _ Hw1 E2 L2) as (w2 & R2 & Hw2). exists w2. unfold bind. rewrite R1. split; [exact R2|]. rewrite app_assoc. exact Hw2.
Qed.
Lemma ctakes_let {A} (r : res A) a wr t : r = Ok a -> ctakes (wr a) t -> ctakes (fun cm => a <- lift r ;; wr a cm) t.
Proof. intros -> H. exact H. Qed.
Lemma ctakes_none wr : ctakes wr None. Proof. intros cm w pre ts bs _ E. discriminate E. Qed.
Lemma ctakes_same wr t t' : t = t' -> ctakes wr t -> ctakes wr t'. Proof. intros ->. auto. Qed.

(** ** Integers *)
Lemma takes_calls_app l1 l2 p bs : layout p (map KCall (l1 ++ l2)) = Some bs -> exists x y, bs = x ++ y /\ layout p (map KCall l1) = Some x /\ layout (p + length x) (map KCall l2) = Some y.
Proof. rewrite map_app. apply layout_split. Qed.
Lemma takes_tr k z : takes (tr_write (int_traits k) z) (Some [KCall (int_call k z)]).
Proof. rewrite tr_write_call. apply takes_call, int_call_wf. Qed.

Lemma dc_write_takes k c z w pre bs : wholds w pre -> layout (length pre) (map KCall (fst (dc_calls k c z))) = Some bs ->
  exists w', dc_write (int_traits k) c z w = (Ok (snd (dc_calls k c z)), w') /\ wholds w' (pre ++ bs).
Proof.
  intros Hw. unfold dc_write, dc_calls. destruct (dc_started c); cbn [negb].
  - destruct (dc_packed c); cbn [negb].
    + destruct (dc_prev c) as [y|]; [|discriminate]. destruct (0 <? dc_max c); cbn [fst snd map]; intros L.
      * destruct (takes_call (WSignedUnchecked (z - y) (dc_max c + 1)) I _ _ _ _ Hw eq_refl L) as (w1 & R & Hw1). exists w1. cbn [run_wcall] in R. unfold bind. rewrite R. auto.
      * injection L as <-. exists w. rewrite app_nil_r. auto.
    + cbn [fst snd map]. intros L. destruct (takes_tr k z _ _ _ _ Hw eq_refl L) as (w1 & R & Hw1). exists w1. unfold bind. rewrite R. auto.
  - cbn [fst snd]. intros L. destruct (takes_calls_app _ _ _ _ L) as (b1 & b2 & -> & L1 & L2).
    assert (D : takes (dc_write_descriptor (dc_finish_init c)) (Some (map KCall (descriptor (if dc_packed (dc_finish_init c) then Some (dc_max (dc_finish_init c)) else None))))).
    { unfold dc_write_descriptor. destruct (dc_packed (dc_finish_init c)).
      - exact (takes_seq _ _ _ _ (takes_call (WBool true) I) (takes_call (WBitsUnchecked (dc_max (dc_finish_init c)) 6) I)).
      - exact (takes_seq _ _ _ _ (takes_call (WBool false) I) takes_ret). }
    destruct (D _ _ _ _ Hw eq_refl L1) as (w1 & R1 & Hw1). rewrite <- app_length in L2. destruct (takes_tr k z _ _ _ _ Hw1 eq_refl L2) as (w2 & R2 & Hw2).
    exists w2. unfold bind. rewrite R1, R2. split; [reflexivity|]. rewrite app_assoc. exact Hw2.
Qed.

Lemma ctakes_int pk k z :
  ctakes (fun cm => match pk with
                    | None => tr_write (int_traits k) z ;;; ret cm
                    | Some K => c <- dc_write (int_traits k) (cm K) z ;; ret (ctx_set K c cm)
                    end) (Some [int_token pk k z]).
Proof.
  destruct pk as [K|].
  - intros cm w pre ts bs Hw E L. injection E as <-. cbn [int_token resolve] in L |- *. cbn [fst snd] in *. rewrite app_nil_r in L.
    destruct (dc_write_takes _ _ _ _ _ _ Hw L) as (w1 & R & Hw1). exists w1. unfold bind. rewrite R. auto.
  - apply ctakes_u; [|apply takes_tr]. intros ts E. injection E as <-. repeat constructor.
Qed.

Lemma readies_int K k z : readies (fun cm => c <-? dc_init (int_traits k) (cm K) z ;; Ok (ctx_set K c cm)) (Some [KInt K k z]).
Proof. intros cm c ts Et E. injection Et as <-. exact E. Qed.
Lemma readies_both c1 c2 t1 t2 : readies c1 t1 -> readies c2 t2 -> readies (fun cm => c <-? c1 cm ;; c2 c) (both t1 t2).
Proof.
  intros H1 H2 cm c ts Et E. destruct (both_some _ _ _ Et) as (x & y & E1 & E2 & ->). rewrite inits_app in E. destruct (inits cm x) as [c'|] eqn:Ex; [|discriminate E].
  cbn [rbind] in E. rewrite (H1 _ _ _ E1 Ex). cbn [rbind]. exact (H2 _ _ _ E2 E).
Qed.
Lemma readies_none c : readies c None. Proof. intros cm c' ts E. discriminate E. Qed.

(** ** Checks *)
Lemma range_bounds_int k z : in_range k z -> exists lo hi, int_bounds k = Ok (lo, hi) /\ lo <= z <= hi.
Proof.
  destruct k as [n|n|t]; cbn [in_range int_bounds].
  - intros H. destruct (Z.ltb_spec n 0); [rewrite Z.pow_neg_r in H by lia; lia|]. rewrite Z.shiftl_mul_pow2 by lia. do 2 eexists. split; [reflexivity|lia].
  - intros H. destruct (Z.ltb_spec (n - 1) 0); [rewrite Z.pow_neg_r in H by lia; lia|]. rewrite Z.shiftl_mul_pow2 by lia. do 2 eexists. split; [reflexivity|lia].
  - destruct t; cbn; intros [H1 H2]; do 2 eexists; (split; [reflexivity|]); split; assumption.
Qed.

Lemma value_eqb_refl : forall v, value_eqb v v = true.
Proof.
  fix IH 1. intros v.
  assert (L : forall l, (fix list_eq (l m : list value) {struct l} : bool := match l, m with [], [] => true | x :: l, y :: m => value_eqb x y && list_eq l m | _, _ => false end) l l = true).
  { fix IHl 1. intros [|x l]; [reflexivity|]. rewrite (IH x). exact (IHl l). }
  destruct v; cbn; rewrite ?L, ?IH, ?Z.eqb_refl, ?Nat.eqb_refl, ?Bool.eqb_reflx; try reflexivity.
  all: match goal with |- context [list_eq_dec ?d ?a ?a] => destruct (list_eq_dec d a a); [reflexivity|congruence] end.
Qed.
Lemma value_eqbs_refl l : value_eqbs l l = true.
Proof. induction l as [|v l IH]; cbn [value_eqbs]; [reflexivity|]. rewrite value_eqb_refl. exact IH. Qed.

Section Ops.
Context (rec : nat -> tops) (toks : option key -> value -> option (list token)) (nested : value -> Prop).
Context (Hrec : forall id pk v, obj_id v = Some id -> values_ok v -> nested v -> ctakes (fun cm => o_write (rec id) pk cm v) (toks pk v)).
Context (Hctx : forall id K v, obj_id v = Some id -> readies (fun cm => o_ctx (rec id) K cm v) (toks (Some K) v)).
Context (Hplain : forall v ts, toks None v = Some ts -> no_ints ts).
Context (Hobj : forall pk v ts, toks pk v = Some ts -> exists id, obj_id v = Some id).

Lemma check_removed_ok k items z : ~ In (z, true) items -> check_removed (TEnum k items) z = Ok tt.
Proof.
  intros H. cbn [check_removed]. destruct (existsb _ items) eqn:E; [|reflexivity]. apply existsb_exists in E. destruct E as ([x r] & Hin & E). cbn [fst snd] in E.
  apply andb_true_iff in E. destruct E as [E1 ->]. apply Z.eqb_eq in E1. subst x. contradiction.
Qed.

Lemma other_takes m c : wf_call c -> (forall w, m w = run_wcall c w) -> ctakes (fun cm => m ;;; ret cm) (Some [KCall c]).
Proof.
  intros Hc Em. apply ctakes_u.
  - intros ts E. injection E as <-. repeat constructor.
  - exact (takes_ext _ _ _ Em (takes_call c Hc)).
Qed.

Lemma value_takes e ty pk v : values_ok v -> checked_value Written nested ty v -> ctakes (fun cm => ty_write rec e ty pk cm v) (value_tokens toks e ty pk v).
Proof.
  intros Hv Hc. destruct ty; cbn [ty_write int_kind value_tokens checked_value shaped] in *.
  - destruct v; try destruct Hc. cbn [int_value check_removed]. apply (ctakes_let _ z); [reflexivity|]. apply (ctakes_let _ tt); [reflexivity|]. apply (ctakes_let _ k); [reflexivity|]. apply ctakes_int.
  - destruct v; try destruct Hc. destruct (length e) as [n|]; [|apply ctakes_none]. cbn [given_by obind int_value check_removed rbind].
    apply (ctakes_let _ z); [reflexivity|]. apply (ctakes_let _ tt); [reflexivity|]. apply (ctakes_let _ (if signed then ISigned n else IBits n)); [reflexivity|]. apply ctakes_int.
  - destruct v; try destruct Hc. cbn [other_write]. exact (other_takes _ (WFloat16 d) Hv (fun _ => eq_refl)).
  - destruct v; try destruct Hc. cbn [other_write]. exact (other_takes _ (WFloat32 d) Hv (fun _ => eq_refl)).
  - destruct v; try destruct Hc. cbn [other_write]. exact (other_takes _ (WFloat64 d) Hv (fun _ => eq_refl)).
  - destruct v; try destruct Hc. cbn [other_write]. exact (other_takes _ (WBool b) I (fun _ => eq_refl)).
  - destruct v; try destruct Hc. cbn [other_write]. exact (other_takes _ (WString s) I (fun _ => eq_refl)).
  - destruct v; try destruct Hc. cbn [other_write]. exact (other_takes _ (WBytes l) Hv (fun _ => eq_refl)).
  - destruct v; try destruct Hc. cbn [other_write]. exact (other_takes _ (WBitBuffer b) Hv (fun _ => eq_refl)).
  - destruct Hc as (z & -> & Hr). cbn [int_value]. apply (ctakes_let _ z); [reflexivity|]. apply (ctakes_let _ tt); [apply check_removed_ok, Hr|]. apply (ctakes_let _ k); [reflexivity|]. apply ctakes_int.
  - destruct v; try destruct Hc. cbn [int_value check_removed]. apply (ctakes_let _ z); [reflexivity|]. apply (ctakes_let _ tt); [reflexivity|]. apply (ctakes_let _ k); [reflexivity|]. apply ctakes_int.
  - destruct Hc as [_ Hn]. unfold obj_ops_of. destruct (obj_id v) as [i|] eqn:Ei.
    + apply (ctakes_let _ (rec i)); [reflexivity|]. auto.
    + intros cm w pre ts bs _ E. destruct (Hobj _ _ _ E). congruence.
Qed.

Lemma value_readies e ty K v : packs ty = true -> readies (fun cm => ty_ctx rec e ty K cm v) (value_tokens toks e ty (Some K) v).
Proof.
  intros Hp. destruct ty; try discriminate Hp; cbn [ty_ctx int_kind value_tokens].
  - destruct v; try apply readies_none. apply readies_int.
  - destruct v; try apply readies_none. destruct (length e) as [n|]; [|apply readies_none]. apply readies_int.
  - destruct v; try apply readies_none. apply readies_int.
  - destruct v; try apply readies_none. apply readies_int.
  - unfold obj_ops_of. destruct (obj_id v) as [i|] eqn:Ei; cbn [rbind]; [auto|]. intros cm c ts E. destruct (Hobj _ _ _ E). congruence.
Qed.

(** ** Arrays *)
Lemma offset_plain o e : only_plain (offset_tokens o e).
Proof. intros ts E1. unfold offset_tokens in E1. destruct o as [o|]; [|injection E1 as <-; constructor]. destruct (given_by _); [|discriminate E1]. injection E1 as <-. repeat constructor. Qed.
Lemma pre_takes o e i : takes (pre_w (checker o e) i) (offset_tokens o (with_index e i)).
Proof. destruct o as [o|]; cbn [checker pre_w offset_tokens]; [apply takes_offset|apply takes_ret]. Qed.

Lemma ctakes_none_takes wr t : only_plain t -> ctakes wr t -> takes (wr ctx_new ;;; ret tt) t.
Proof.
  intros P H w pre ts bs Hw E L. specialize (H ctx_new w pre ts bs Hw E). rewrite (resolve_plain ctx_new ts (P _ E)) in H. destruct (H L) as (w1 & R & Hw1).
  exists w1. unfold bind. rewrite R. auto.
Qed.
Lemma value_only_plain e ty v : only_plain (value_tokens toks e ty None v).
Proof. intros ts. exact (value_plain toks Hplain e ty v ts). Qed.

Lemma elements_both e ty pk o i v l :
  element_tokens toks e ty pk o i (v :: l) = both (offset_tokens o (with_index e i)) (both (value_tokens toks e ty pk v) (element_tokens toks e ty pk o (i + 1) l)).
Proof.
  cbn [element_tokens]. unfold both. destruct (offset_tokens _ _); cbn [obind]; [|reflexivity]. destruct (value_tokens _ _ _ _ _); cbn [obind]; [|reflexivity].
  destruct (element_tokens _ _ _ _ _ _ _); reflexivity.
Qed.

Lemma elements_takes e ty o : forall l i, all_ok l -> Forall (checked_value Written nested ty) l ->
  takes (for_each_from i (write_element (elem_traits rec e ty) (checker o e)) l) (element_tokens toks e ty None o i l).
Proof.
  induction l as [|v l IH]; intros i Hl Hc; [apply takes_ret|]. rewrite elements_both. destruct Hl as [Hv Hl]. inversion Hc as [|? ? Hc1 Hc2]. subst.
  refine (takes_ext _ (pre_w (checker o e) i ;;; tr_write (elem_traits rec e ty) v ;;; for_each_from (i + 1) (write_element (elem_traits rec e ty) (checker o e)) l) _ _ _).
  - intros w. cbn [for_each_from]. unfold write_element, pre_w. destruct o as [o|]; cbn [checker]; [|reflexivity].
    unfold bind. destruct (writer_alignto 8 w) as [[?|] w1]; [|reflexivity]. cbn [gets lift]. destruct (check_offset _ _ _); reflexivity.
  - apply takes_seq; [apply pre_takes|]. apply takes_seq; [|apply IH; assumption].
    exact (ctakes_none_takes _ _ (value_only_plain e ty v) (value_takes e ty None v Hv Hc1)).
Qed.

Lemma packed_loop_takes e ty o : forall l i c w pre ts bs, all_ok l -> Forall (checked_value Written nested ty) l -> wholds w pre ->
  element_tokens toks e ty (Some []) o i l = Some ts -> layout (List.length pre) (fst (resolve c ts)) = Some bs ->
  exists w', write_loop_packed (elem_packed_traits rec e ty) (checker o e) c i l w = (Ok tt, w') /\ wholds w' (pre ++ bs).
Proof.
  induction l as [|v l IH]; intros i c w pre ts bs Hl Hc Hw Et L.
  - injection Et as <-. injection L as <-. exists w. rewrite app_nil_r. auto.
  - rewrite elements_both in Et. destruct Hl as [Hv Hl]. inversion Hc as [|? ? Hc1 Hc2]. subst.
    destruct (both_some _ _ _ Et) as (t1 & t & E1 & E' & ->). destruct (both_some _ _ _ E') as (t2 & t3 & E2 & E3 & ->).
    rewrite resolve_app, (resolve_plain c t1 (offset_plain _ _ _ E1)), resolve_app in L. cbn [fst snd] in L.
    destruct (layout_split _ _ _ _ L) as (b1 & b & -> & L1 & L'). destruct (layout_split _ _ _ _ L') as (b2 & b3 & -> & L2 & L3).
    destruct (pre_takes o e i _ _ _ _ Hw E1 L1) as (w1 & R1 & Hw1). rewrite <- app_length in L2.
    destruct (value_takes e ty (Some []) v Hv Hc1 _ _ _ _ _ Hw1 E2 L2) as (w2 & R2 & Hw2). rewrite <- Nat.add_assoc, <- !app_length, app_assoc in L3.
    destruct (IH _ _ _ _ _ _ Hl Hc2 Hw2 E3 ltac:(rewrite <- L3; f_equal; rewrite !app_length; lia)) as (w3 & R3 & Hw3).
    exists w3. cbn [write_loop_packed]. unfold pre_w in R1. unfold bind in *. rewrite R1. cbn [elem_packed_traits pt_write]. rewrite R2. split; [exact R3|]. rewrite !app_assoc. exact Hw3.
Qed.

Lemma packed_readies e ty o : packs ty = true -> forall l i, readies (fun c => init_contexts (elem_packed_traits rec e ty) c l) (element_tokens toks e ty (Some []) o i l).
Proof.
  intros Hp. induction l as [|v l IH]; intros i cm c ts Et E.
  - injection Et as <-. exact E.
  - rewrite elements_both in Et. destruct (both_some _ _ _ Et) as (t1 & t & E1 & E' & ->). rewrite inits_app, (inits_plain _ _ (offset_plain _ _ _ E1)) in E. cbn [rbind] in E.
    cbn [init_contexts elem_packed_traits pt_init]. exact (readies_both _ _ _ _ (value_readies e ty [] v Hp) (IH (i + 1)) cm c t E' E).
Qed.

Lemma array_takes e ty auto packed o l : (packed = true -> packs ty = true) -> all_ok l -> Forall (checked_value Written nested ty) l ->
  takes (if packed : bool then array_write_packed (elem_packed_traits rec e ty) auto (checker o e) l else array_write (elem_traits rec e ty) auto (checker o e) l)
    (array_tokens toks e ty auto packed o l).
Proof.
  intros Hp Hl Hc.
  assert (S : takes (if auto : bool then write_varsize (zlen l) else ret tt) (Some (if auto then [KCall (WVar VarSize (zlen l))] else []))).
  { destruct auto; [exact (takes_call (WVar VarSize (zlen l)) I)|apply takes_ret]. }
  unfold array_tokens. destruct packed.
  - assert (P : takes (if 0 <? zlen l then c <- lift (init_contexts (elem_packed_traits rec e ty) (pt_create (elem_packed_traits rec e ty)) l) ;; write_loop_packed (elem_packed_traits rec e ty) (checker o e) c 0 l else ret tt)
                  (ts <-! element_tokens toks e ty (Some []) o 0 l ;; pack ts)).
    { destruct (0 <? zlen l) eqn:E0.
      - intros w pre ts bs Hw E L. destruct (element_tokens toks e ty (Some []) o 0 l) as [us|] eqn:Eu; [|discriminate E]. cbn [obind] in E.
        assert (Hz : forallb has_size us = true) by (unfold pack in E; destruct (forallb has_size us); [reflexivity|discriminate E]).
        destruct (proj2 (inits_sized us ctx_new) Hz) as (c & Ec). rewrite (resolve_pack _ _ Ec) in E. injection E as <-.
        destruct (packed_loop_takes _ _ _ _ _ _ _ _ _ _ Hl Hc Hw Eu L) as (w1 & R & Hw1). exists w1. split; [|exact Hw1].
        pose proof (packed_readies e ty o (Hp eq_refl) l 0 _ _ _ Eu Ec) as X. cbn beta in X. cbn [pt_create elem_packed_traits]. unfold bind, lift. rewrite X. exact R.
      - destruct l; [|unfold zlen in E0; cbn [List.length] in E0; lia]. apply takes_ret. }
    intros w pre ts bs Hw E L. apply (takes_seq _ _ _ _ S P w pre ts bs Hw); [|exact L]. rewrite <- E.
    unfold both. cbn [obind]. destruct (element_tokens _ _ _ _ _ _); cbn [obind]; [|reflexivity]. destruct (pack _); reflexivity.
  - intros w pre ts bs Hw E L. apply (takes_seq _ _ _ _ S (elements_takes e ty o l 0 Hl Hc) w pre ts bs Hw); [|exact L]. rewrite <- E.
    unfold both. cbn [obind]. destruct (element_tokens _ _ _ _ _ _); reflexivity.
Qed.

(** ** Fields *)
Definition packable_field (f : field) : Prop := f_packable f = true -> packs (f_ty f) = true.

Lemma array_only_plain e ty auto packed o l : only_plain (array_tokens toks e ty auto packed o l).
Proof.
  intros ts. unfold array_tokens. destruct packed.
  - destruct (element_tokens _ _ _ _ _ _ _); cbn [obind]; [|discriminate]. destruct (pack _) as [t|] eqn:Ep; cbn [obind]; [|discriminate].
    intros E. injection E as <-. apply Forall_app. split; [destruct auto; repeat constructor|exact (pack_plain _ _ Ep)].
  - destruct (element_tokens _ _ _ _ _ _ _) as [t|] eqn:Et; cbn [obind]; [|discriminate]. intros E. injection E as <-.
    apply Forall_app. split; [destruct auto; repeat constructor|exact (elements_plain toks Hplain _ _ _ _ _ _ Et)].
Qed.

Lemma content_takes f i e pk v : packable_field f -> values_ok v -> checked_field Written nested f e v ->
  ctakes (fun cm => fval_write rec f i e pk cm v) (content_tokens toks f i e pk v).
Proof.
  intros Hp Hv Hc. pose proof (ck_values _ _ _ _ _ Hc) as Hvs. unfold fval_write, content_tokens. destruct (f_arr f) as [[a kw]|] eqn:Ea.
  - destruct Hvs as (l & -> & Hl). rewrite checker_indexed. unfold array_is_packed.
    replace (f_packable f && (match pk with Some _ => true | None => false end || kw)) with (f_packable f && (kw || match pk with Some _ => true | None => false end))
      by (destruct pk, kw; reflexivity).
    change (is_auto a) with (match a with AAuto => true | _ => false end). apply ctakes_u; [apply array_only_plain|]. apply array_takes; [|exact Hv|exact Hl].
    intros E. apply andb_true_iff in E. exact (Hp (proj1 E)).
  - rewrite field_path_key. apply value_takes; assumption.
Qed.

Lemma checks_pass f e v pk i ts : checked_field Written nested f e v -> content_tokens toks f i e pk v = Some ts ->
  check_constraint f e v = Ok tt /\ check_array_length f e v = Ok tt /\ check_parameters f e v = Ok tt /\ check_range f e v = Ok tt.
Proof.
  intros Hc Ht. split; [|split; [|split]].
  - unfold check_constraint. destruct (f_con f) as [c|] eqn:Ec; [|reflexivity]. rewrite (ck_constraint _ _ _ _ _ Hc c Ec). reflexivity.
  - unfold check_array_length. destruct (f_arr f) as [[[| |len] kw]|] eqn:Ea; try reflexivity.
    destruct (ck_length _ _ _ _ _ Hc len kw Ea) as (l & n & -> & En & Hl). rewrite En. cbn [rbind]. rewrite Hl, Z.eqb_refl. reflexivity.
  - unfold check_parameters. destruct (f_arr f) as [a|] eqn:Ea; [reflexivity|]. pose proof (ck_params _ _ _ _ _ Hc Ea) as Hp. destruct (f_ty f) eqn:Ety; try reflexivity.
    destruct args as [|a args]; [reflexivity|]. rewrite <- Hp. destruct (obj_params v) as [ps|] eqn:Eo.
    + cbn [rbind]. rewrite value_eqbs_refl. reflexivity.
    + unfold content_tokens in Ht. rewrite Ea, Ety in Ht. destruct (Hobj _ _ _ Ht) as (j & Hj). destruct v; discriminate.
  - unfold check_range. destruct (f_arr f) as [a|] eqn:Ea; [reflexivity|]. pose proof (ck_range _ _ _ _ _ Hc eq_refl) as Hr.
    destruct (f_ty f) eqn:Ety; try reflexivity; (destruct (f_range f); [|reflexivity]); specialize (Hr eq_refl Ea).
    + destruct Hr as (z & -> & Hz). destruct (range_bounds_int _ _ Hz) as (lo & hi & Eb & Hb). cbn [range_bounds int_value]. rewrite Eb. cbn [rbind fst snd].
      destruct (Z.ltb_spec z lo), (Z.ltb_spec hi z); cbn [orb]; try lia. reflexivity.
    + destruct Hr as (n & z & En & Hn & -> & Hz). cbn [range_bounds int_value]. rewrite En. cbn [rbind].
      assert (En' : check_bitfield_length n = Ok tt) by (unfold check_bitfield_length; destruct (Z.leb_spec n 0), (Z.ltb_spec 64 n); try lia; reflexivity).
      destruct signed; unfold signed_bitfield_lowerbound, signed_bitfield_upperbound, bitfield_lowerbound, bitfield_upperbound; rewrite En'; cbn [rbind fst snd];
        cbn [in_range] in Hz; rewrite Z.shiftl_1_l; match goal with |- (if ?a || ?b then _ else _) = _ => destruct a eqn:Ex, b eqn:Ey end; cbn [orb]; try lia; reflexivity.
Qed.

Lemma used_takes f i e pk v : aligned_field f -> packable_field f -> values_ok v -> checked_field Written nested f e v ->
  ctakes (fun cm => field_write_inner rec f i e pk cm v) (used_tokens toks f i e pk v).
Proof.
  intros Hf Hp Hv Hc. unfold field_write_inner. rewrite single_plain.
  assert (A : takes (match f_align f with Some a => writer_alignto a | None => ret tt end) (Some (match f_align f with Some a => [KCall (WAlign a)] | None => [] end))).
  { destruct (f_align f) as [a|] eqn:Ea; [exact (takes_call (WAlign a) (Hf a Ea))|apply takes_ret]. }
  assert (Ap : only_plain (Some (match f_align f with Some a => [KCall (WAlign a)] | None => [] end))).
  { intros ts E. injection E as <-. destruct (f_align f); repeat constructor. }
  assert (O : takes (match single_offset f with Some o => writer_alignto 8 ;;; p <- gets w_pos ;; lift (check_offset o e p) | None => ret tt end) (offset_tokens (single_offset f) e)).
  { destruct (single_offset f) as [o|]; [apply takes_offset|apply takes_ret]. }
  assert (C : ctakes (fun cm => lift (check_constraint f e v) ;;; lift (check_array_length f e v) ;;; lift (check_parameters f e v) ;;; lift (check_range f e v) ;;; fval_write rec f i e pk cm v) (content_tokens toks f i e pk v)).
  { intros cm w pre ts bs Hw Et L. destruct (checks_pass _ _ _ _ _ _ Hc Et) as (C1 & C2 & C3 & C4). rewrite C1, C2, C3, C4. exact (content_takes f i e pk v Hp Hv Hc cm w pre ts bs Hw Et L). }
  refine (ctakes_same _ _ _ _ (ctakes_useq _ _ _ _ Ap A (ctakes_useq _ _ _ _ (offset_plain _ _) O C))).
  unfold both, used_tokens. cbn [obind]. destruct (offset_tokens _ _); cbn [obind]; [|reflexivity]. destruct (content_tokens _ _ _ _ _ _); reflexivity.
Qed.

Lemma field_takes f i e pk v : aligned_field f -> packable_field f -> values_ok v -> (is_used f e v = Ok true -> checked_field Written nested f e v) ->
  ctakes (fun cm => field_write rec f i true e pk cm v) (ts <-! field_tokens toks f i e pk v ;; Some ((if f_ext f then [KCall (WAlign 8)] else []) ++ ts)).
Proof.
  intros Hf Hp Hv Hc. unfold field_write. cbn [negb].
  assert (X : takes (if f_ext f then writer_alignto 8 else ret tt) (Some (if f_ext f then [KCall (WAlign 8)] else []))).
  { destruct (f_ext f); [refine (takes_call (WAlign 8) _); cbn; lia|apply takes_ret]. }
  assert (Xp : only_plain (Some (if f_ext f then [KCall (WAlign 8)] else []))) by (intros ts E; injection E as <-; destruct (f_ext f); repeat constructor).
  refine (ctakes_useq _ _ _ _ Xp X _). unfold field_tokens, is_used in *.
  destruct (f_opt f) as [| |c]; [apply used_takes; auto| |].
  - destruct (is_none v) eqn:Ev.
    + destruct v; try discriminate Ev. exact (other_takes _ (WBool false) I (fun _ => eq_refl)).
    + assert (Bp : only_plain (Some [KCall (WBool true)])) by (intros ts E; injection E as <-; repeat constructor).
      refine (ctakes_same _ _ _ _ (ctakes_useq _ _ _ _ Bp (takes_call (WBool true) I) (used_takes f i e pk v Hf Hp Hv (Hc eq_refl)))).
      destruct v; try discriminate Ev; unfold both; cbn [obind app]; destruct (used_tokens _ _ _ _ _ _); reflexivity.
  - destruct (c e) as [used|]; [|apply ctakes_none]. cbn [given_by obind]. apply (ctakes_let _ used); [reflexivity|]. destruct used; [apply used_takes; auto|apply ctakes_ret].
Qed.

Lemma used_readies f i e K v : packable_field f ->
  readies (fun cm => match field_key f i (Some K) with None => Ok cm | Some K' => ty_ctx rec e (f_ty f) K' cm v end) (used_tokens toks f i e (Some K) v).
Proof.
  intros Hp cm c ts. unfold used_tokens. destruct (offset_tokens _ _) as [t1|] eqn:E1; cbn [obind]; [|discriminate].
  destruct (content_tokens _ _ _ _ _ _) as [t2|] eqn:E2; cbn [obind]; [|discriminate]. intros Et. injection Et as <-.
  rewrite inits_app, inits_plain by (destruct (f_align f); repeat constructor). cbn [rbind]. rewrite inits_app, inits_plain by exact (offset_plain _ _ _ E1). cbn [rbind].
  unfold content_tokens in E2. rewrite field_path_key in E2. destruct (f_arr f) as [[a kw]|] eqn:Ea.
  - unfold field_key. rewrite Ea. destruct v; try discriminate E2. rewrite (inits_plain _ _ (array_only_plain _ _ _ _ _ _ _ E2)). auto.
  - destruct (field_key f i (Some K)) as [K'|] eqn:Ek.
    + intros E. apply (value_readies e (f_ty f) K' v) with (ts := t2); [|exact E2|exact E]. apply Hp. unfold field_key in Ek. rewrite Ea in Ek. destruct (f_packable f); [reflexivity|discriminate Ek].
    + rewrite (inits_plain _ _ (value_only_plain _ _ _ _ E2)). auto.
Qed.

Lemma field_readies f i e K v : packable_field f -> readies (fun cm => field_ctx rec f i true e K cm v) (field_tokens toks f i e (Some K) v).
Proof.
  intros Hp cm c ts Et E. pose proof (used_readies f i e K v Hp) as H. unfold field_ctx. cbn [negb].
  assert (E' : forall used, is_used f e v = Ok used -> (if used : bool then match field_key f i (Some K) with None => Ok cm | Some K' => ty_ctx rec e (f_ty f) K' cm v end else Ok cm) = Ok c ->
    match field_key f i (Some K) with None => Ok cm | Some K' => used <-? is_used f e v ;; if used : bool then ty_ctx rec e (f_ty f) K' cm v else Ok cm end = Ok c).
  { intros used Eu. rewrite Eu. cbn [rbind]. destruct (field_key f i (Some K)); destruct used; auto. }
  unfold field_tokens, is_used in *. destruct (f_opt f) as [| |o].
  - exact (E' _ eq_refl (H _ _ _ Et E)).
  - apply (E' _ eq_refl). destruct (is_none v) eqn:Ev; cbn [negb].
    + destruct v; try discriminate Ev. injection Et as <-. exact E.
    + assert (X : (t <-! used_tokens toks f i e (Some K) v ;; Some (KCall (WBool true) :: t)) = Some ts) by (destruct v; try discriminate Ev; exact Et).
      clear Et. destruct (used_tokens toks f i e (Some K) v) as [t|] eqn:Et; [|discriminate X]. injection X as <-. cbn [inits] in E. exact (H _ _ _ eq_refl E).
  - destruct (o e) as [u|]; [|discriminate Et]. cbn [given_by obind] in Et. apply (E' _ eq_refl). destruct u.
    + exact (H _ _ _ Et E).
    + injection Et as <-. exact E.
Qed.

(** ** Compounds *)
Lemma struct_both ps pk done n f fs v vs : struct_tokens toks ps pk done n (f :: fs) (v :: vs) =
  both (if f_ext f then if 0 <? n then ts <-! field_tokens toks f (List.length done) (fenv ps done) pk v ;; Some (KCall (WAlign 8) :: ts) else Some []
        else field_tokens toks f (List.length done) (fenv ps done) pk v) (struct_tokens toks ps pk (done ++ [v]) (if f_ext f then n - 1 else n) fs vs).
Proof. reflexivity. Qed.

Lemma struct_takes ps ne pk : forall fs vs done ei, Forall aligned_field fs -> Forall packable_field fs -> all_ok vs -> checked_fields Written nested ps ne done ei fs vs ->
  ctakes (fun cm => struct_write rec ps ne pk cm done ei fs vs) (struct_tokens toks ps pk done (ne - ei) fs vs).
Proof.
  induction fs as [|f fs IH]; intros vs done ei Hfs Hps Hvs Hc; destruct vs as [|v vs]; try destruct Hc; [apply ctakes_ret|].
  rewrite struct_both. cbn [struct_write].
  inversion Hfs as [|? ? Hf Hfs']. subst. inversion Hps as [|? ? Hp Hps']. subst. destruct Hvs as [Hv Hvs].
  assert (H' : ctakes (fun cm => struct_write rec ps ne pk cm (done ++ [v]) (next_ei f ei) fs vs) (struct_tokens toks ps pk (done ++ [v]) (if f_ext f then ne - ei - 1 else ne - ei) fs vs)).
  { unfold next_ei in *. destruct (f_ext f); [replace (ne - ei - 1) with (ne - (ei + 1)) by lia|]; apply IH; auto. }
  refine (ctakes_seq _ _ _ _ _ H').
  unfold is_present in *. pose proof (field_takes f (List.length done) (fenv ps done) pk v Hf Hp Hv) as F. destruct (f_ext f) eqn:Ex; cbn [negb orb app] in *.
  - replace (0 <? ne - ei) with (ei <? ne) by (destruct (Z.ltb_spec ei ne), (Z.ltb_spec 0 (ne - ei)); lia).
    destruct (ei <? ne); [apply F; auto|]. apply ctakes_ret.
  - refine (ctakes_same _ _ _ _ (F (H eq_refl))). destruct (field_tokens _ _ _ _ _ _); reflexivity.
Qed.

Lemma struct_readies ps ne K : forall fs vs done ei, Forall packable_field fs ->
  readies (fun cm => struct_ctx rec ps ne K cm done ei fs vs) (struct_tokens toks ps (Some K) done (ne - ei) fs vs).
Proof.
  induction fs as [|f fs IH]; intros vs done ei Hps; destruct vs as [|v vs]; try (cbn [struct_tokens]; apply readies_none).
  { intros cm c ts Et E. injection Et as <-. exact E. }
  rewrite struct_both. cbn [struct_ctx]. inversion Hps as [|? ? Hp Hps']. subst.
  assert (H : readies (fun cm => struct_ctx rec ps ne K cm (done ++ [v]) (next_ei f ei) fs vs) (struct_tokens toks ps (Some K) (done ++ [v]) (if f_ext f then ne - ei - 1 else ne - ei) fs vs)).
  { unfold next_ei. destruct (f_ext f); [replace (ne - ei - 1) with (ne - (ei + 1)) by lia|]; apply IH; auto. }
  refine (readies_both _ _ _ _ _ H).
  unfold is_present. pose proof (field_readies f (List.length done) (fenv ps done) K v Hp) as F. destruct (f_ext f) eqn:Ex; cbn [negb orb] in *; [|exact F].
  replace (0 <? ne - ei) with (ei <? ne) by (destruct (Z.ltb_spec ei ne), (Z.ltb_spec 0 (ne - ei)); lia).
  destruct (ei <? ne).
  - intros cm c ts Et E. destruct (field_tokens _ _ _ _ _ _) as [t|] eqn:E1; [|discriminate Et]. injection Et as <-. exact (F _ _ _ eq_refl E).
  - intros cm c ts Et E. injection Et as <-. unfold field_ctx. cbn [negb]. destruct (field_key _ _ _); exact E.
Qed.

Definition packable_decl (d : decl) : Prop :=
  match d with
  | DStruct fs | DUnion fs => Forall packable_field fs
  | DChoice _ cases default => Forall (fun c => forall f, snd c = Some f -> packable_field f) cases /\ forall f, default = Some (Some f) -> packable_field f
  end.

Lemma choice_from (P : field -> Prop) selector cases default ps i f : Forall (fun c => forall f, snd c = Some f -> P f) cases -> (forall f, default = Some (Some f) -> P f) ->
  choice_member selector cases default ps = Ok (Some (i, f)) -> P f.
Proof.
  intros H1 H2 Em. unfold choice_member in Em. destruct (choice_has_fields cases default); [|discriminate Em].
  destruct (match cases with [] => Ok VNone | _ => selector (fenv ps []) end) as [sel|]; [|discriminate Em]. exact (select_from P _ _ _ _ _ _ H1 H2 Em).
Qed.

(** The checks of an object whose members satisfy [nested] *)
Definition checked_decl (d : decl) (v : value) : Prop :=
  match d, v with
  | DStruct fs, VStruct _ ps vs num_ext => checked_fields Written nested ps num_ext [] 0 fs vs
  | DChoice selector cases default, VChoice _ ps c =>
      exists m, choice_member selector cases default ps = Ok m /\
        match m with Some (_, f) => is_used f (fenv ps []) c = Ok true -> checked_field Written nested f (fenv ps []) c | None => True end
  | DUnion [], VUnion _ _ _ _ => True
  | DUnion fs, VUnion _ ps tag c =>
      exists f, 0 <= tag /\ nth_error fs (Z.to_nat tag) = Some f /\ (is_used f (fenv ps []) c = Ok true -> checked_field Written nested f (fenv ps []) c)
  | _, _ => False
  end.

Lemma decl_takes d pk v : aligned_decl d -> packable_decl d -> values_ok v -> checked_decl d v -> ctakes (fun cm => compound_write rec d pk cm v) (decl_tokens toks d pk v).
Proof.
  intros Hd Hp Hv Hc. destruct d as [fs|selector cases default|fs].
  - destruct v; try destruct Hc. cbn [compound_write decl_tokens].
    pose proof (struct_takes params num_extended_fields pk fs fields [] 0 Hd Hp Hv Hc) as H. rewrite Z.sub_0_r in H. exact H.
  - destruct v; try destruct Hc. destruct H as [Em Hc]. cbn [compound_write]. rewrite Em, (choice_tokens_of _ _ _ _ _ _ _ _ _ Em). destruct x as [[i f]|]; [|apply ctakes_ret].
    destruct Hd as [A1 A2]. destruct Hp as [P1 P2]. apply field_takes; auto; [exact (choice_from _ _ _ _ _ _ _ A1 A2 Em)|exact (choice_from _ _ _ _ _ _ _ P1 P2 Em)].
  - destruct fs as [|f0 fs], v; try destruct Hc; [apply ctakes_ret|]. destruct H as (Ht & En & Hc). cbn [compound_write decl_tokens].
    assert (T' : ctakes (fun cm => match pk with None => tr_write tag_traits choice_tag ;;; ret cm | Some K => x <- dc_write tag_traits (cm (O :: K)) choice_tag ;; ret (ctx_set (O :: K) x cm) end)
                   (Some [int_token (match pk with Some K => Some (O :: K) | None => None end) (IVar VarSize) choice_tag])).
    { pose proof (ctakes_int (match pk with Some K => Some (O :: K) | None => None end) (IVar VarSize) choice_tag) as T. destruct pk as [K|]; exact T. }
    assert (Hin : In x (f0 :: fs)) by exact (nth_error_In _ _ En).
    assert (F : ctakes (fun cm => f <- lift (nth_field (f0 :: fs) choice_tag) ;; field_write rec f (Z.to_nat choice_tag) true (fenv params []) pk cm v)
                  (member_tokens toks x (Z.to_nat choice_tag) params pk v)).
    { apply (ctakes_let _ x).
      - unfold nth_field. destruct (Z.ltb_spec choice_tag 0); [lia|]. rewrite En. reflexivity.
      - apply field_takes; auto; [exact (proj1 (Forall_forall _ _) Hd x Hin)|exact (proj1 (Forall_forall _ _) Hp x Hin)]. }
    refine (ctakes_same _ _ _ _ (ctakes_seq _ _ _ _ T' F)). rewrite En. unfold both. cbn [obind].
    destruct (member_tokens _ _ _ _ _ _); reflexivity.
Qed.

Lemma member_readies f i ps K c : packable_field f -> readies (fun cm => field_ctx rec f i true (fenv ps []) K cm c) (member_tokens toks f i ps (Some K) c).
Proof.
  intros Hp cm c' ts. unfold member_tokens. change {| e_params := ps; e_fields := []; e_index := 0 |} with (fenv ps []).
  destruct (field_tokens _ _ _ _ _ _) as [t|] eqn:Et; cbn [obind]; [|discriminate]. intros X. injection X as <-.
  rewrite inits_app, inits_plain by (destruct (f_ext f); repeat constructor). cbn [rbind]. exact (field_readies _ _ _ _ _ Hp _ _ _ Et).
Qed.

Lemma decl_readies d K v : packable_decl d -> readies (fun cm => compound_ctx rec d K cm v) (decl_tokens toks d (Some K) v).
Proof.
  intros Hp. destruct d as [fs|selector cases default|fs].
  - destruct v; cbn [compound_ctx decl_tokens]; try apply readies_none.
    pose proof (struct_readies params num_extended_fields K fs fields [] 0 Hp) as H. rewrite Z.sub_0_r in H. exact H.
  - destruct v; try apply readies_none. intros cm c ts Et E. destruct (choice_tokens_inv _ _ _ _ _ _ _ _ _ Et) as (m & Em).
    rewrite (choice_tokens_of _ _ _ _ _ _ _ _ _ Em) in Et. cbn [compound_ctx]. rewrite Em. cbn [rbind]. destruct Hp as [P1 P2].
    destruct m as [[i f]|].
    + pose proof (member_readies f i params K v (choice_from _ _ _ _ _ _ _ P1 P2 Em) cm c ts Et E) as R. cbn beta in R. destruct (choice_uses_ctx cases default) eqn:Eu; [exact R|].
      destruct (uses_ctx_false _ _ Eu) as [U1 U2]. pose proof (choice_from (fun f => uses_ctx f = false) _ _ _ _ _ _ U1 U2 Em) as Hu. cbn beta in Hu. unfold field_ctx in R. rewrite (unused_ctx _ _ _ Hu) in R. exact R.
    + injection Et as <-. destruct (choice_uses_ctx cases default); exact E.
  - destruct fs as [|f0 fs], v; cbn [compound_ctx decl_tokens]; try apply readies_none.
    { intros cm c ts Et E. injection Et as <-. exact E. }
    intros cm c ts Et E. destruct (nth_error (f0 :: fs) (Z.to_nat choice_tag)) as [f|] eqn:En; [|discriminate Et]. cbn [obind] in Et.
    destruct (member_tokens _ _ _ _ _ _) as [t|] eqn:E1; [|discriminate Et]. injection Et as <-. cbn [int_token inits] in E. unfold tag_traits.
    destruct (dc_init (int_traits (IVar VarSize)) (cm (O :: K)) choice_tag) as [x|] eqn:Ex; [|discriminate E]. cbn [rbind] in *.
    pose proof (proj1 (dc_init_size (IVar VarSize) _ _) (ex_intro _ _ Ex)) as Hr. apply vt_rangeb_spec in Hr. unfold nth_field. destruct (Z.ltb_spec choice_tag 0); [destruct Hr as [Hr _]; cbn in Hr; lia|].
    rewrite En. cbn [rbind]. refine (member_readies _ _ _ _ _ _ _ _ _ E1 E). exact (proj1 (Forall_forall _ _) Hp f (nth_error_In _ _ En)).
Qed.
End Ops.

(** ** Classes *)
Lemma class_accepts s : alignments_ok s -> packable_ok s -> forall depth,
  (forall id pk v, obj_id v = Some id -> values_ok v -> checked_object Written s depth v -> ctakes (fun cm => o_write (class_of s depth id) pk cm v) (object_tokens s depth pk v)) /\
  (forall id K v, obj_id v = Some id -> readies (fun cm => o_ctx (class_of s depth id) K cm v) (object_tokens s depth (Some K) v)) /\
  (forall v ts, object_tokens s depth None v = Some ts -> no_ints ts) /\
  (forall pk v ts, object_tokens s depth pk v = Some ts -> exists id, obj_id v = Some id).
Proof.
  intros HS HP. induction depth as [|n (IH1 & IH2 & IH3 & IH4)].
  { split; [|split; [|split]]; intros; try discriminate. }
  assert (A : forall id d, s id = Some d -> aligned_decl d).
  { intros id d Ed. specialize (HS _ _ Ed). unfold aligned_decl, aligned_field. destruct d; auto. destruct HS as [H1 H2]. split; [|eauto]. eapply Forall_impl; [|exact H1]. cbn beta. eauto. }
  assert (P : forall id d, s id = Some d -> packable_decl d).
  { intros id d Ed. specialize (HP _ _ Ed). unfold packable_decl, packable_field. destruct d; auto. destruct HP as [H1 H2]. split.
    - eapply Forall_impl; [|exact H1]. cbn beta. intros c Hc f Ef. rewrite Ef in Hc. exact Hc.
    - intros f ->. exact H2. }
  split; [|split; [|split]].
  - intros id pk v Hid Hv Hc. cbn [class_of object_tokens]. rewrite Hid. cbn [obind]. destruct (s id) as [d|] eqn:Ed; [|apply ctakes_none]. cbn [obind].
    apply (decl_takes (class_of s n) (object_tokens s n) (checked_object Written s n)); eauto.
    cbn [checked_object] in Hc. destruct v; try discriminate Hid; injection Hid as ->; rewrite Ed in Hc; destruct d; try destruct Hc; unfold checked_decl; eauto.
  - intros id K v Hid. cbn [class_of object_tokens]. rewrite Hid. cbn [obind]. destruct (s id) as [d|] eqn:Ed; [|apply readies_none]. cbn [obind].
    apply (decl_readies (class_of s n) (object_tokens s n) (checked_object Written s n)); eauto.
  - intros v ts. cbn [object_tokens]. destruct (obj_id v) as [id|]; [|discriminate]. cbn [obind]. destruct (s id) as [d|]; [|discriminate]. cbn [obind].
    apply (decl_plain (object_tokens s n)); auto.
  - intros pk v ts. cbn [object_tokens]. destruct (obj_id v); [eauto|discriminate].
Qed.

Theorem write_accepts s depth v w pre bs : alignments_ok s -> packable_ok s -> values_ok v -> wholds w pre ->
  checked_object Written s depth v -> encoding s depth v (length pre) = Some bs ->
  exists w', obj_write s depth v w = (Ok tt, w') /\ wholds w' (pre ++ bs).
Proof.
  intros HS HP Hv Hw Hc E. unfold encoding in E. destruct (object_tokens s depth None v) as [ts|] eqn:Et; [|discriminate E]. cbn [obind] in E.
  destruct (class_accepts s HS HP depth) as (H1 & _ & H3 & H4). destruct (H4 _ _ _ Et) as (id & Hid).
  destruct (ctakes_none_takes _ _ (H3 v) (H1 id None v Hid Hv Hc) w pre ts bs Hw Et E) as (w1 & R & Hw1). exists w1. split; [|exact Hw1].
  unfold obj_write, obj_ops_of. rewrite Hid. exact R.
Qed.

Theorem write_accepts_iff s depth v w pre : alignments_ok s -> packable_ok s -> int_types_ok s -> values_ok v -> wholds w pre ->
  (exists w', obj_write s depth v w = (Ok tt, w')) <-> checked_object Written s depth v /\ encoding s depth v (length pre) <> None.
Proof.
  intros HS HP HI Hv Hw. split.
  - intros (w' & E). split; [exact (obj_write_done _ _ _ _ _ HI E)|]. destruct (write_encoding _ _ _ _ _ _ HS Hv Hw E) as (bs & Eb & _). congruence.
  - intros [Hc He]. destruct (encoding s depth v (length pre)) as [bs|] eqn:Eb; [|congruence]. destruct (write_accepts _ _ _ _ _ _ HS HP Hv Hw Hc Eb) as (w' & E & _). eauto.
Qed.
