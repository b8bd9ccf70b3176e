(** Properties C03, C04, C06, C12, C18, C51: sizes by type, block sizes, the default
    parameters, and what a failed Seek reports. *)
From Verif Require Import Base Pb FSNode SpecCodec Dag Builder Balanced Trickle Importer SpecFile Reader SpecReader ReaderWitness SmallProofs.

(** C03: the size of every message is decided by its type number: Raw 0 and File 2 have the
    recorded file size, Symlink 4 the length of its data, Directory 1 and HAMTShard 5
    have none, and no other number is known. *)
Theorem C03_size_by_type : forall b, DataSize b =
  match FSNodeFromBytes b with
  | Ok d =>
      match getType d with
      | 0 | 2 => Ok (match d_filesize d with Some z => z | None => 0 end)
      | 4 => Ok (zlen (obytes (d_data d)) mod 18446744073709551616)
      | 1 | 5 => Err EDirSize
      | _ => Err EUnrecData
      end
  | Err e => Err e
  | Panic => Panic
  | Fuel => Fuel
  end.
Proof. exact size_by_type. Qed.
Print Assumptions C03_size_by_type.
(** A file, a symlink, and the negative type -1. *)
Example C03_size_case : DataSize [x08; x02; x18; x07] = Ok 7 /\ DataSize [x08; x04; x12; x01; x61; x18; x07] = Ok 1 /\
  DataSize [x08; xff; xff; xff; xff; xff; xff; xff; xff; xff; x01; x18; x07] = Err EUnrecData.
Proof. vm_compute. repeat split. Qed.

(** C04: BlockSize gives the entries of the list, and panics outside it. *)
Theorem C04_block_sizes : forall t ops d bs n i, t = TFile \/ t = TRaw ->
  spec_run ops = Some (d, bs) -> fs_run t ops = Ok n ->
  BlockSize i n = if (0 <=? i) && (i <? zlen bs) then Ok (nth (Z.to_nat i) bs 0) else Panic.
Proof. exact block_sizes. Qed.
Print Assumptions C04_block_sizes.
Example C04_block_sizes_case : exists n, fs_run TFile [OpAddBlockSize 5; OpAddBlockSize 9; OpRemoveBlockSize 0; OpAddBlockSize 4] = Ok n /\
  spec_run [OpAddBlockSize 5; OpAddBlockSize 9; OpRemoveBlockSize 0; OpAddBlockSize 4] = Some ([], [9; 4]) /\
  BlockSize 0 n = Ok 9 /\ BlockSize 1 n = Ok 4 /\ BlockSize 2 n = Panic /\ BlockSize (-1) n = Panic.
Proof. eexists. split; [reflexivity|]. vm_compute. repeat split. Qed.

(** C06, C51: BuildDagFromReader imports every source whose chunks are not too large, and
    makes dag-pb blocks with version 0 CIDs only. *)
Theorem C06_default : forall fuel fi chunks w, (length chunks <= fuel)%nat ->
  source_ok BlockSizeLimit chunks -> (forall i, w_addok w i = true) ->
  exists root w', BuildDagFromReader fuel fi (map EvData chunks) w = (Ok root, w') /\
    file_content root (concat chunks) /\ uniform false (mkPrefix 0 112 18 32) (mkPrefix 0 112 18 32) root.
Proof. exact default_balanced. Qed.
Print Assumptions C06_default.

(** C12, C51: the same of BuildTrickleDagFromReader. *)
Theorem C12_default : forall fuel fi chunks w, (length chunks < fuel)%nat ->
  source_ok BlockSizeLimit chunks -> (forall i, w_addok w i = true) ->
  exists root w', BuildTrickleDagFromReader fuel fi (map EvData chunks) w = (Ok root, w') /\
    file_content root (concat chunks) /\ (chunks <> [] -> uniform false (mkPrefix 0 112 18 32) (mkPrefix 0 112 18 32) root).
Proof. exact default_trickle. Qed.
Print Assumptions C12_default.
Example C06_default_case : source_ok BlockSizeLimit [[x61; x62]; []; [x63]] /\ (forall i, w_addok full i = true) /\ [[x61; x62]; []; [x63]] <> [].
Proof. split; [repeat (constructor; [discriminate|]); constructor|]. split; [reflexivity|discriminate]. Qed.

(** C18: after a failed Seek the reader reports position 0. (This is what makes it false
    that a failed Seek is harmless: the walker is not there.) *)
Theorem C18_failed_seek_position_partial : forall w w' p r n e r1, 0 <= p -> Seek w p 0 r = (n, Err e, r1) ->
  n = 0 /\ Seek w' 0 1 r1 = (0, Ok tt, r1) /\ r_root r1 = r_root r.
Proof. exact failed_seek. Qed.
Print Assumptions C18_failed_seek_position_partial.
Example C18_failed_seek_position_case : exists r n e r1, NewDagReader full abcde = Ok r /\ Seek missing_de 4 0 r = (n, Err e, r1).
Proof. eexists _, _, _, _. split; [vm_compute; reflexivity|]. vm_compute. reflexivity. Qed.
