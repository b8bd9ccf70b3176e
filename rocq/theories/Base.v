(** Bytes, machine integers, outcomes and list helpers shared by the model. *)
From Coq Require Export List ZArith Lia Bool Arith.
From Coq Require Export Strings.Byte.
From Coq Require Export ZifyBool ZifyNat ZifyN.
Export ListNotations.
Global Open Scope Z_scope.
Global Open Scope list_scope.

Arguments Z.of_nat : simpl never.
Arguments Z.to_nat : simpl never.
Arguments Z.add : simpl never.
Arguments Z.sub : simpl never.
Arguments Z.mul : simpl never.
Arguments Z.div : simpl never.
Arguments Z.modulo : simpl never.
Arguments Z.pow : simpl never.
Arguments Z.opp : simpl never.
Arguments Z.leb : simpl never.
Arguments Z.ltb : simpl never.
Arguments Z.eqb : simpl never.

(** Go [byte], [[]byte] and [string]. *)
Definition bytes := list byte.

(** Numeric value of a byte, and the low byte of an integer (Go [byte(x)]). *)
Definition b2z (b : byte) : Z := Z.of_N (Byte.to_N b).
Definition z2b (z : Z) : byte :=
  match Byte.of_N (Z.to_N (z mod 256)) with Some b => b | None => x00 end.

(** A possibly nil slice read as a list. *)
Definition obytes (o : option bytes) : bytes := match o with Some v => v | None => [] end.

(** Length as an integer (Go [len]). *)
Definition zlen {A} (l : list A) : Z := Z.of_nat (length l).
(** Slicing [l[:n]] and [l[n:]] for [0 <= n <= len]; callers check bounds. *)
Definition ztake {A} (n : Z) (l : list A) : list A := firstn (Z.to_nat n) l.
Definition zdrop {A} (n : Z) (l : list A) : list A := skipn (Z.to_nat n) l.

(** Two's complement conversions: Go [uint64(x)], [int64(x)], [int32(x)]. *)
Definition two64 : Z := 18446744073709551616.
Definition two63 : Z := 9223372036854775808.
Definition u64 (z : Z) : Z := z mod two64.
Definition i64 (z : Z) : Z := (z + two63) mod two64 - two63.
Definition i32 (z : Z) : Z := (z + 2147483648) mod 4294967296 - 2147483648.

(** Errors returned by the modelled functions. *)
Inductive err : Set :=
| ERequired            (* proto: required field not set *)
| EUnexpectedEOF       (* io.ErrUnexpectedEOF while decoding *)
| EBadWire             (* proto: can't skip unknown wire type *)
| EDirSize             (* can't get data size of directory *)
| EUnrecData           (* unrecognized node data type *)
| ENotMetadata         (* incorrect node type *)
| EUnexpectedPlace     (* found X node in unexpected place *)
| EExpectedProto       (* expected a ProtoNode as internal node *)
| ESplit               (* error reported by the chunk source *)
| ESizeLimit           (* ErrSizeLimitExceeded *)
| EAdd                 (* DAGService.Add failed *)
| EFetch               (* DAGService.Get failed *)
| ENotProtobuf         (* dag.ErrNotProtobuf *)
| EMissingFsRef        (* ErrMissingFsRef *)
| EIsDir               (* ErrIsDir *)
| ECantReadSymlinks    (* ErrCantReadSymlinks *)
| EUnknownNodeType     (* ErrUnkownNodeType *)
| ESeekNotSupported    (* ErrSeekNotSupported *)
| EInvalidOffset       (* invalid offset *)
| EInvalidWhence       (* invalid whence / ErrUnrecognizedWhence *)
| EMetaNoLinks         (* incorrectly formatted metadata object *)
| EEOF                 (* io.EOF *)
| EWrite               (* destination writer failed *)
| EVerify              (* trickle structure check failed *)
| ENotExist            (* os.ErrNotExist *)
| ETooDeep             (* sharded directory too deep *)
| EBadWidth            (* invalid HAMT width *)
| EBadBitfield         (* bitfield size error *)
| EHamtMalformed       (* malformed shard node *)
| ENotADir             (* ErrNotADir *)
| ELinkNotFound        (* dag.ErrLinkNotFound *)
| EInvalidChild        (* invalid child index *)
| ENoPath              (* end of path *)
| EModifyKind          (* errors specific to the modifier *)
| EOther.

(** Outcome of a Go call: normal result, returned error, run-time panic, or (for
    loops modelled with fuel) no result within the fuel. *)
Inductive res (A : Type) : Type :=
| Ok (a : A)
| Err (e : err)
| Panic
| Fuel.
Arguments Ok {A} a.
Arguments Err {A} e.
Arguments Panic {A}.
Arguments Fuel {A}.

Definition rbind {A B} (r : res A) (f : A -> res B) : res B :=
  match r with Ok a => f a | Err e => Err e | Panic => Panic | Fuel => Fuel end.
Definition rmap {A B} (f : A -> B) (r : res A) : res B :=
  match r with Ok a => Ok (f a) | Err e => Err e | Panic => Panic | Fuel => Fuel end.

Notation "'let?' x ':=' r 'in' k" := (rbind r (fun x => k))
  (at level 200, x pattern, r at level 100, k at level 200).

(** ** Lemmas *)

Ltac Zify.zify_post_hook ::= Z.div_mod_to_equations.

Lemma b2z_range b : 0 <= b2z b < 256.
Proof.
  unfold b2z. pose proof (Byte.to_N_bounded b). lia.
Qed.

Lemma z2b_b2z b : z2b (b2z b) = b.
Proof.
  unfold z2b. pose proof (b2z_range b) as H.
  rewrite Z.mod_small by lia. unfold b2z. rewrite N2Z.id, Byte.of_to_N. reflexivity.
Qed.

Lemma b2z_z2b z : b2z (z2b z) = z mod 256.
Proof.
  unfold z2b, b2z.
  destruct (Byte.of_N (Z.to_N (z mod 256))) as [b|] eqn:E.
  - apply Byte.to_of_N in E. rewrite E. rewrite Z2N.id; [reflexivity|].
    apply Z.mod_pos_bound. lia.
  - exfalso. apply Byte.of_N_None_iff in E.
    pose proof (Z.mod_pos_bound z 256). lia.
Qed.

Lemma b2z_inj a b : b2z a = b2z b -> a = b.
Proof. intros H. rewrite <- (z2b_b2z a), <- (z2b_b2z b), H. reflexivity. Qed.

Lemma zlen_nonneg {A} (l : list A) : 0 <= zlen l.
Proof. unfold zlen. lia. Qed.
Lemma zlen_nil {A} : zlen (@nil A) = 0.
Proof. reflexivity. Qed.
Lemma zlen_cons {A} (x : A) l : zlen (x :: l) = 1 + zlen l.
Proof. unfold zlen. cbn [length]. lia. Qed.
Lemma zlen_app {A} (l m : list A) : zlen (l ++ m) = zlen l + zlen m.
Proof. unfold zlen. rewrite app_length. lia. Qed.
Lemma zlen_0_nil {A} (l : list A) : zlen l = 0 -> l = [].
Proof. destruct l; [reflexivity|]. rewrite zlen_cons. pose proof (zlen_nonneg l). lia. Qed.

Lemma ztake_zdrop {A} n (l : list A) : ztake n l ++ zdrop n l = l.
Proof. apply firstn_skipn. Qed.
Lemma zlen_ztake {A} n (l : list A) : 0 <= n <= zlen l -> zlen (ztake n l) = n.
Proof. unfold zlen, ztake. intros H. rewrite firstn_length. lia. Qed.
Lemma zlen_zdrop {A} n (l : list A) : 0 <= n <= zlen l -> zlen (zdrop n l) = zlen l - n.
Proof. unfold zlen, zdrop. intros H. rewrite skipn_length. lia. Qed.
Lemma ztake_0 {A} (l : list A) : ztake 0 l = [].
Proof. reflexivity. Qed.
Lemma zdrop_0 {A} (l : list A) : zdrop 0 l = l.
Proof. reflexivity. Qed.
Lemma ztake_all {A} n (l : list A) : zlen l <= n -> ztake n l = l.
Proof. unfold ztake, zlen. intros. apply firstn_all2. lia. Qed.
Lemma zdrop_all {A} n (l : list A) : zlen l <= n -> zdrop n l = [].
Proof. unfold zdrop, zlen. intros. apply skipn_all2. lia. Qed.

Lemma ztake_app_l {A} n (l m : list A) : n <= zlen l -> ztake n (l ++ m) = ztake n l.
Proof.
  unfold ztake, zlen. intros. rewrite firstn_app.
  replace (Z.to_nat n - length l)%nat with 0%nat by lia. cbn. now rewrite app_nil_r.
Qed.
Lemma ztake_app_r {A} n (l m : list A) :
  zlen l <= n -> ztake n (l ++ m) = l ++ ztake (n - zlen l) m.
Proof.
  unfold ztake, zlen. intros. rewrite firstn_app. rewrite firstn_all2 by lia.
  f_equal. f_equal. lia.
Qed.
Lemma zdrop_app_l {A} n (l m : list A) : n <= zlen l -> zdrop n (l ++ m) = zdrop n l ++ m.
Proof.
  unfold zdrop, zlen. intros. rewrite skipn_app.
  replace (Z.to_nat n - length l)%nat with 0%nat by lia. reflexivity.
Qed.
Lemma zdrop_app_r {A} n (l m : list A) :
  zlen l <= n -> zdrop n (l ++ m) = zdrop (n - zlen l) m.
Proof.
  unfold zdrop, zlen. intros. rewrite skipn_app. rewrite skipn_all2 by lia.
  cbn. f_equal. lia.
Qed.
Lemma zdrop_zdrop {A} a b (l : list A) :
  0 <= a -> 0 <= b -> zdrop a (zdrop b l) = zdrop (b + a) l.
Proof.
  unfold zdrop. intros. replace (Z.to_nat (b + a)) with (Z.to_nat b + Z.to_nat a)%nat by lia.
  revert l. induction (Z.to_nat b) as [|n IH]; intros l; cbn; [reflexivity|].
  destruct l; [now rewrite skipn_nil|]. apply IH.
Qed.
Lemma zdrop_ztake {A} a b (l : list A) :
  0 <= a -> 0 <= b -> zdrop a (ztake (a + b) l) = ztake b (zdrop a l).
Proof.
  unfold zdrop, ztake. intros. replace (Z.to_nat (a + b)) with (Z.to_nat a + Z.to_nat b)%nat by lia.
  rewrite <- firstn_skipn_comm. reflexivity.
Qed.

Lemma u64_small z : 0 <= z < two64 -> u64 z = z.
Proof. unfold u64. apply Z.mod_small. Qed.
Lemma u64_range z : 0 <= u64 z < two64.
Proof. apply Z.mod_pos_bound. reflexivity. Qed.
Lemma i64_small z : - two63 <= z < two63 -> i64 z = z.
Proof. unfold i64, two63, two64. intros. rewrite Z.mod_small; lia. Qed.
Lemma i32_small z : -2147483648 <= z < 2147483648 -> i32 z = z.
Proof. unfold i32. intros. rewrite Z.mod_small; lia. Qed.
Lemma i64_range z : - two63 <= i64 z < two63.
Proof. unfold i64, two63, two64. lia. Qed.
Lemma i32_range z : -2147483648 <= i32 z < 2147483648.
Proof. unfold i32. lia. Qed.

Lemma Ok_inj {A} (a b : A) : Ok a = Ok b -> a = b.
Proof. congruence. Qed.
Lemma Some_inj {A} (a b : A) : Some a = Some b -> a = b.
Proof. congruence. Qed.
