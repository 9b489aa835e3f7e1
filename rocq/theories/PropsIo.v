(** C121: integers on streams, and values read from a random stream. *)
From Coq Require Import ZArith Znumtheory String List Lia Bool.
From Verif Require Import Base Bytes Limb ScLimbs IntModel RandModel RandProofs ScModel ScProofs FeLimbs FeModel FeProofs Primes Group Edwards Fp EdCurve GeConsts GeModel GeProofs GeMul GeBase GeBaseMul GeEnc GeVar EdOrder EdModel EdBytes PropsSc EdSpec PointModel PointProofs PointCurve IntProofs PropsInt PropsRand PropsPoint IoModel.
Import ListNotations.
Local Open Scope Z_scope.
Opaque point_embed.

(** ** Integers written one after the other *)
(** The integers of a list written to a stream. *)
Fixpoint write_all (l : list Int) (w : list Z) : outcome int_error (list Z) :=
  match l with [] => Ok w | i :: r => bindo (int_marshal_to i w) (fun w' => write_all r w') end.
(** Receivers filled one after the other, and what is left of the stream. *)
Fixpoint read_all (l : list Int) (r : list Z) : option (list Int * list Z) :=
  match l with
  | [] => Some ([], r)
  | j :: l' => match int_unmarshal_from j r with
               | (Ok _, i, r') => match read_all l' r' with Some (is, r'') => Some (i :: is, r'') | None => None end
               | _ => None
               end
  end.

(** Big-endian integers in range, of any moduli, written after w and read into receivers of these moduli, come back; what follows
    them on the stream is left. *)
Theorem C121_stream_partial (l js : list Int) (w rest : list Z) :
  Forall (fun i => 0 <= iv i < im i /\ ibo i = BigEndian) l -> Forall2 (fun i j => im j = im i /\ ibo j = BigEndian) l js ->
  exists b, write_all l w = Ok (w ++ b) /\ read_all js (b ++ rest) = Some (l, rest).
Proof.
  intros F H. revert w. induction H as [|i j l js [E1 E2] H IH]; intros w.
  - exists []. cbn. now rewrite app_nil_r.
  - destruct (Forall_inv F) as [V B]. destruct (C14_big_endian_round_trip i V B) as [b [M [L [_ [_ U]]]]].
    destruct (IH (Forall_inv_tail F) (w ++ b)) as [b' [W R]]. exists (b ++ b'). cbn [write_all read_all]. unfold int_marshal_to. rewrite M. cbn [bindo].
    rewrite W, <- !app_assoc. split; [reflexivity|]. unfold int_unmarshal_from.
    assert (S : int_marshal_size j = length b) by (rewrite L; unfold int_marshal_size; now rewrite E1).
    rewrite S, app_length, firstn_app, Nat.sub_diag, firstn_all, firstn_O, app_nil_r, (U j E1 E2), skipn_app, Nat.sub_diag, skipn_all.
    destruct (Nat.ltb_spec (length b + length (b' ++ rest)) (length b)); [lia|]. cbn [app skipn]. now rewrite R.
Qed.
Print Assumptions C121_stream_partial.
Example C121_stream_example : write_all [mkInt 5 65521 BigEndian; mkInt 6 7 BigEndian] [9] = Ok [9; 0; 5; 6] /\
  read_all [mkInt 1 65521 BigEndian; mkInt 2 7 BigEndian] [0; 5; 6; 3] = Some ([mkInt 5 65521 BigEndian; mkInt 6 7 BigEndian], [3]).
Proof. split; reflexivity. Qed.

(** Full statement: for both byte orders.  Little-endian integers are written without their leading zero bytes: two of them are
    read back without an error as another number, or the reader runs out of bytes. *)
Theorem C121_stream_refuted :
  (exists i j b k rest, 0 <= iv i < im i /\ ibo i = LittleEndian /\ 0 <= iv j < im j /\ write_all [i; j] [] = Ok b /\
     int_unmarshal_from i b = (Ok tt, k, rest) /\ iv k <> iv i) /\
  (exists i b, 0 <= iv i < im i /\ ibo i = LittleEndian /\ write_all [i] [] = Ok b /\ fst (fst (int_unmarshal_from i b)) = Err (Datatypes.inl IoError)).
Proof.
  split.
  - exists (mkInt 1 65521 LittleEndian), (mkInt 2 65521 LittleEndian), [1; 2], (mkInt 513 65521 LittleEndian), [].
    repeat split; try (cbn; lia); reflexivity.
  - exists (mkInt 1 65521 LittleEndian), [1]. repeat split; try (cbn; lia); reflexivity.
Qed.
Print Assumptions C121_stream_refuted.

(** A failing or short read never panics and takes the bytes of one integer off the stream at most. *)
Theorem C121_reader (i : Int) (r : list Z) :
  match int_unmarshal_from i r with
  | (Ok _, k, rest) => exists b, r = b ++ rest /\ length b = int_marshal_size i /\ im k = im i /\ ibo k = ibo i /\ iv k < im i /\
      iv k = match ibo i with LittleEndian => le_val b | BigEndian => be_val b end
  | (Err (Datatypes.inl _), k, _) => (length r < int_marshal_size i)%nat /\ k = i
  | (Err (Datatypes.inr _), k, rest) => exists b, r = b ++ rest /\ length b = int_marshal_size i
  | _ => False
  end.
Proof.
  unfold int_unmarshal_from. destruct (Nat.ltb_spec (length r) (int_marshal_size i)) as [L|L]; [split; [exact L|reflexivity]|].
  assert (F : length (firstn (int_marshal_size i) r) = int_marshal_size i) by (rewrite firstn_length; lia).
  assert (D : r = firstn (int_marshal_size i) r ++ skipn (int_marshal_size i) r) by (symmetry; apply firstn_skipn).
  unfold int_unmarshal. rewrite F, Nat.eqb_refl. cbn [negb iv]. destruct (Z.leb_spec (im i) (be_val match ibo i with LittleEndian => rev (firstn (int_marshal_size i) r) | BigEndian => firstn (int_marshal_size i) r end)) as [K|K].
  - exists (firstn (int_marshal_size i) r). split; [exact D|exact F].
  - exists (firstn (int_marshal_size i) r). split; [exact D|]. split; [exact F|]. split; [reflexivity|]. split; [reflexivity|]. split; [exact K|].
    cbn [iv]. destruct (ibo i); [unfold be_val; now rewrite rev_involutive|reflexivity].
Qed.
Print Assumptions C121_reader.
Example C121_reader_example : int_unmarshal_from (mkInt 4 7 BigEndian) [6; 1] = (Ok tt, mkInt 6 7 BigEndian, [1]) /\
  int_unmarshal_from (mkInt 4 7 BigEndian) [] = (Err (Datatypes.inl IoError), mkInt 4 7 BigEndian, []) /\
  fst (fst (int_unmarshal_from (mkInt 4 7 BigEndian) [7; 1])) = Err (Datatypes.inr OutOfRange).
Proof. repeat split; reflexivity. Qed.

(** ** Values from a random stream *)

(** Integers: the modulus stays, the value is in [1, m).  Points: a non-zero multiple of the base point.  Scalars: in [1, order)
    when the receiver was fresh (full statement: for every receiver). *)
Theorem C121_random_partial (St : Type) (R : stream St) (fuel : nat) (s s' : St) : stream_law R ->
  (forall i k, int_unmarshal_from_random R fuel i s = Ok (k, s') -> im k = im i /\ ibo k = ibo i /\ 1 <= iv k < im i) /\
  (forall p q, point_unmarshal_from_random R fuel p s = Ok (q, s') -> exists j, 0 < j < order /\ repr q (mul j ebase)) /\
  (forall v, scalar_unmarshal_from_random R fuel (repeat 0 32) s = Ok (v, s') -> scalar32 v /\ 1 <= le_val v < order).
Proof.
  intros HR. split; [|split].
  - intros i k H. destruct (C18_pick St R fuel i k s s' HR H) as [E1 [E2 E3]]. rewrite E1 in E3. auto.
  - intros p q H. exact (C80_pick St R fuel p q s s' HR H).
  - intros v H. assert (S : scalar32 (repeat 0 32)) by (split; [repeat (constructor; [lia|]); constructor|reflexivity]).
    destruct (C27_setters_partial (repeat 0 32) 0 [] S ltac:(lia) ltac:(constructor)) as [_ [_ P]].
    unfold scalar_unmarshal_from_random in H. destruct (P St R fuel s HR) as [[E _]|[r [x [t [E [_ [B [[n [_ [S' _]]] V]]]]]]]]; rewrite H in E; [discriminate E|].
    injection E as <- <-. split; [exact S'|]. rewrite (V eq_refl). exact B.
Qed.
Print Assumptions C121_random_partial.

(** A stream whose bytes are all 0 but the second, 255. *)
Definition high_stream : stream unit := Stream (fun s src => (Some (map (fun k => if Nat.eqb k 1 then 255 else 0) (seq 0 (length src))), s)).
Lemma high_law : stream_law high_stream.
Proof.
  intros s src o s' H. cbn [xks high_stream] in H. injection H as <- _. split; [now rewrite map_length, seq_length|]. intros _.
  apply Forall_forall. intros x Hx. apply in_map_iff in Hx. destruct Hx as [k [<- _]]. unfold is_byte. destruct (Nat.eqb k 1); lia.
Qed.
(** A reduced scalar that is refilled keeps its highest byte, and is then above the order. *)
Theorem C121_random_refuted : exists (v r : list Z) (St : Type) (R : stream St) (s s' : St), stream_law R /\ scalar32 v /\ le_val v < order /\
  scalar_unmarshal_from_random R 1 v s = Ok (r, s') /\ order <= le_val r.
Proof.
  exists (le_bytes 32 (order - 1)), (le_bytes 32 (2 ^ 252 + 255 * 2 ^ 240)), unit, high_stream, tt, tt.
  split; [exact high_law|]. split; [split; [apply le_bytes_bytes|reflexivity]|]. split; [vm_compute; reflexivity|]. split; [vm_compute; reflexivity|]. vm_compute. discriminate.
Qed.
Print Assumptions C121_random_refuted.
Example C121_random_example : exists k, int_unmarshal_from_random high_stream 1 (mkInt 3 65521 BigEndian) tt = Ok (k, tt) /\ iv k = 255 /\
  (exists v, scalar_unmarshal_from_random high_stream 1 (repeat 0 32) tt = Ok (v, tt) /\ le_val v = 255 * 2 ^ 240).
Proof. eexists. split; [reflexivity|]. split; [reflexivity|]. eexists. split; vm_compute; reflexivity. Qed.

(** The identifiers of the three encodings are different and eight bytes long. *)
Theorem C121_ids : NoDup [INT_ID; SCALAR_ID; POINT_ID] /\ Forall (fun id => length id = 8%nat /\ bytes id) [INT_ID; SCALAR_ID; POINT_ID].
Proof.
  split.
  - repeat constructor; cbn; intuition discriminate.
  - repeat constructor; try reflexivity; unfold is_byte; cbn; lia.
Qed.
Print Assumptions C121_ids.

(** ** The byte order and the modulus of results *)
(** Sums and products have those of the left operand, zero and one those of the value they are called on, differences and negatives
    the byte order of the receiver and the modulus of the operand: so the results are encoded in this order and width. *)
Theorem C11_representation (i a b r : Int) :
  (int_add a b = Ok r -> ibo r = ibo a /\ im r = im a) /\ (int_mul a b = Ok r -> ibo r = ibo a /\ im r = im a) /\
  (int_sub i a b = Ok r -> ibo r = ibo i /\ im r = im a) /\ (int_inv i a = Ok r -> ibo r = ibo i /\ im r = im a) /\
  (int_div i a b = Ok r -> ibo r = ibo i /\ im r = im i) /\
  ibo (int_neg i a) = ibo i /\ im (int_neg i a) = im a /\ ibo (int_set i a) = ibo i /\ im (int_set i a) = im a /\ iv (int_set i a) = iv a /\
  ibo (int_zero i) = ibo i /\ im (int_zero i) = im i /\ ibo (int_one i) = ibo i /\ im (int_one i) = im i.
Proof.
  assert (K : forall (o : outcome int_error Z) (m : Z) (bo : byte_order), bindo o (fun v => Ok (mkInt v m bo)) = Ok r -> ibo r = bo /\ im r = m).
  { intros [v|e| |] m bo; cbn; try discriminate. now intros [= <-]. }
  unfold int_add, int_mul, int_sub, int_inv, int_div.
  split; [apply K|]. split; [apply K|]. split; [|split; [|split; [apply K|repeat split]]].
  - destruct (brem (iv a - iv b) (im a)); cbn [bindo]; try discriminate. apply K.
  - destruct (im a <? 0); [discriminate|]. apply K.
Qed.
Print Assumptions C11_representation.
Example C11_representation_example : int_marshal (int_one (mkInt 5 65521 LittleEndian)) = Ok [1] /\
  int_marshal (int_one (mkInt 5 65521 BigEndian)) = Ok [0; 1] /\
  int_sub (mkInt 0 3 LittleEndian) (mkInt 5 7 BigEndian) (mkInt 6 7 BigEndian) = Ok (mkInt 6 7 LittleEndian).
Proof. repeat split; reflexivity. Qed.
