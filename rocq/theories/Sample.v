(** The sample meshes of the repository: the bytes of the files below
    /repo/tests/samples/staticmesh, in hexadecimal. *)
From Coq Require Import ZArith List Ascii String.
From Verif Require Import PyBase Struct.
Import ListNotations.
Open Scope Z_scope.

Definition hex_digit (c : ascii) : N := let n := N_of_ascii c in (if n <? 97 then n - 48 else n - 87)%N.
Fixpoint unhex (s : string) : bytes :=
  match s with
  | String c (String d t) => ascii_of_N (16 * hex_digit c + hex_digit d) :: unhex t
  | _ => []
  end.

(** evil_box/Meshes/evil_box.staticmesh, 2486 bytes. *)
Definition evil_box_file : bytes := Eval vm_compute in flat_map unhex [
  "000000000b0000000000000000000000000000000001000000010000000a000000000000000200000000000c0002000300000018000400020000001c000100050000002400010005010000";
  "2c0001000502000034000100050300003c00010005040000440002000600ff000000110000000400000050000000190000000000003f000000000000003f00000000000080bf0000000000";
  "00000000000000000000000000000000000000000000000000000000000000000000000000a43e0000a43effff7fbf0000000000000000000000bf000000000000003f00000000000080bf";
  "00000000000000000000803f000000000000803f000000000000803f000000000000803f000000000000003c0000a43effff7fbf0000000000000000000000bf00000000000000bf000000";
  "00000080bf00000000000000000000803f0000803f0000803f0000803f0000803f0000803f0000803f0000803f0000003c0000003cffff7fbf00000000000000000000003f000000000000";
  "00bf00000000000080bf0000000000000000000000000000803f000000000000803f000000000000803f000000000000803f0000a43e0000003cffff7fbf00000000000000000000003f00";
  "00803f0000003f000000000000803f00000000000000000000803f000000000000803f000000000000803f000000000000803f000000000000253f0000a43effff7f3f0000000000000000";
  "0000003f0000803f000000bf000000000000803f00000000000000000000803f0000803f0000803f0000803f0000803f0000803f0000803f0000803f0000253f0000003cffff7f3f000000";
  "0000000000000000bf0000803f000000bf000000000000803f0000000000000000000000000000803f000000000000803f000000000000803f000000000000803f0000aa3e0000003cffff";
  "7f3f0000000000000000000000bf0000803f0000003f000000000000803f000000000000000000000000000000000000000000000000000000000000000000000000000000000000aa3e00";
  "00a43effff7f3f00000000000000000000003f0000803f000000bf0000000000000000000080bf000000000000803f000000000000803f000000000000803f000000000000803f00000000";
  "0000783f0000a43effff7f3f00000000000000000000003f00000000000000bf0000000000000000000080bf000000000000803f0000803f0000803f0000803f0000803f0000803f000080";
  "3f0000803f0000783f0000003cffff7f3f0000000000000000000000bf00000000000000bf0000000000000000000080bf00000000000000000000803f000000000000803f000000000000";
  "803f000000000000803f0000283f0000003cffff7f3f0000000000000000000000bf0000803f000000bf0000000000000000000080bf000000000000000000000000000000000000000000";
  "0000000000000000000000000000000000283f0000a43effff7f3f00000000000000000000003f0000803f0000003f0000803f0000000000000000000000000000803f000000000000803f";
  "000000000000803f000000000000803f000000000000a43e0000253f0000000000000000ffff7f3f0000003f000000000000003f0000803f0000000000000000000000000000803f000080";
  "3f0000803f0000803f0000803f0000803f0000803f0000803f0000003c0000253f0000000000000000ffff7f3f0000003f00000000000000bf0000803f0000000000000000000000000000";
  "00000000803f000000000000803f000000000000803f000000000000803f0000003c0000aa3e0000000000000000ffff7f3f0000003f0000803f000000bf0000803f000000000000000000";
  "00000000000000000000000000000000000000000000000000000000000000000000000000a43e0000aa3e0000000000000000ffff7f3f000000bf0000803f0000003f0000000000000000";
  "0000803f000000000000803f000000000000803f000000000000803f000000000000803f000000000000aa3e0000253fffff7fbf0000000000000000000000bf000000000000003f000000";
  "00000000000000803f000000000000803f0000803f0000803f0000803f0000803f0000803f0000803f0000803f0000aa3e0000aa3effff7fbf00000000000000000000003f000000000000";
  "003f00000000000000000000803f000000000000000000000000000000000000803f000000000000000000000000000000000000000000000000ffff7fbf00000000000000000000003f00";
  "00803f0000003f00000000000000000000803f0000000000000000000000000000000000000000000000000000000000000000000000000000253f0000253fffff7fbf0000000000000000";
  "000000bf0000803f000000bf000080bf0000000000000000000000000000803f000000000000803f000000000000803f000000000000803f000000000000783f0000aa3e00000000000000";
  "00ffff7fbf000000bf00000000000000bf000080bf0000000000000000000000000000803f0000803f0000803f0000803f0000803f0000803f0000803f0000803f0000283f0000aa3e0000";
  "000000000000ffff7fbf000000bf000000000000003f000080bf000000000000000000000000000000000000803f000000000000803f000000000000803f000000000000803f0000283f00";
  "00253f0000000000000000ffff7fbf000000bf0000803f0000003f000080bf0000000000000000000000000000000000000000000000000000000000000000000000000000000000000000";
  "0000783f0000253f0000000000000000ffff7fbf0000003f000000000000003f00000000000000000000803f00000000000000000000803f000000000000803f000000000000803f000000";
  "000000803f0000253f0000aa3effff7fbf0000000000000000240000001600170014001400150016001800130010001000110018000e000f000c000c000d000e000a000b00080008000900";
  "0a0006000700040004000500060002000300000000000100020008000000000000bf00000000000000bf0000003f0000803f0000003f010000000000803f00000000000000000000000000";
  "0000000000803f000000000000000000000000000000000000803f000000000000000000000000000000000000803f01000000000000000d0000005374617469634d6573682e6678040000";
  "0042617365020000003b0000006f626a656374732f7374617469636f626a656374732f746573742f6576696c5f626f782f74657874757265732f6576696c5f626f785f632e646473250000";
  "00436f6d6d6f6e5c54657874757265735c53706563756c61724c55545f706f7733362e64647300000000000000002400000019000000801f0000ffff0000000000bf00000000000000bf00";
  "00003f0000803f0000003f"]%string.

(** evil_box_dest/Meshes/evil_box_dest.staticmesh, 4843 bytes. *)
Definition evil_dest_file : bytes := Eval vm_compute in flat_map unhex [
  "000000000b000000000000000000000000000000000200000001000000010000000a000000000000000200000000000c0002000300000018000400020000001c0001000500000024000100";
  "050100002c0001000502000034000100050300003c00010005040000440002000600ff000000110000000400000050000000320000000000003f000000000000003f00000000000080bf00";
  "0000000000000000000000000000000000000000000000000000000000000000000000000000000000a43e0000a43effff7fbf0000000000000000000000bf000000000000003f00000000";
  "000080bf00000000000000000000803f000000000000803f000000000000803f000000000000803f000000000000003c0000a43effff7fbf0000000000000000000000bf00000000000000";
  "bf00000000000080bf00000000000000000000803f0000803f0000803f0000803f0000803f0000803f0000803f0000803f0000003c0000003cffff7fbf00000000000000000000003f0000";
  "0000000000bf00000000000080bf0000000000000000000000000000803f000000000000803f000000000000803f000000000000803f0000a43e0000003cffff7fbf000000000000000000";
  "00003f0000803f0000003f000000000000803f00000000000000000000803f000000000000803f000000000000803f000000000000803f000000000000253f0000a43effff7f3f00000000";
  "000000000000003f0000803f000000bf000000000000803f00000000000000000000803f0000803f0000803f0000803f0000803f0000803f0000803f0000803f0000253f0000003cffff7f";
  "3f0000000000000000000000bf0000803f000000bf000000000000803f0000000000000000000000000000803f000000000000803f000000000000803f000000000000803f0000aa3e0000";
  "003cffff7f3f0000000000000000000000bf0000803f0000003f000000000000803f0000000000000000000000000000000000000000000000000000000000000000000000000000000000";
  "00aa3e0000a43effff7f3f00000000000000000000003f0000803f000000bf0000000000000000000080bf000000000000803f000000000000803f000000000000803f000000000000803f";
  "000000000000783f0000a43effff7f3f00000000000000000000003f00000000000000bf0000000000000000000080bf000000000000803f0000803f0000803f0000803f0000803f000080";
  "3f0000803f0000803f0000783f0000003cffff7f3f0000000000000000000000bf00000000000000bf0000000000000000000080bf00000000000000000000803f000000000000803f0000";
  "00000000803f000000000000803f0000283f0000003cffff7f3f0000000000000000000000bf0000803f000000bf0000000000000000000080bf0000000000000000000000000000000000";
  "000000000000000000000000000000000000000000283f0000a43effff7f3f00000000000000000000003f0000803f0000003f0000803f0000000000000000000000000000803f00000000";
  "0000803f000000000000803f000000000000803f000000000000a43e0000253f0000000000000000ffff7f3f0000003f000000000000003f0000803f000000000000000000000000000080";
  "3f0000803f0000803f0000803f0000803f0000803f0000803f0000803f0000003c0000253f0000000000000000ffff7f3f0000003f00000000000000bf0000803f00000000000000000000";
  "0000000000000000803f000000000000803f000000000000803f000000000000803f0000003c0000aa3e0000000000000000ffff7f3f0000003f0000803f000000bf0000803f0000000000";
  "0000000000000000000000000000000000000000000000000000000000000000000000000000000000a43e0000aa3e0000000000000000ffff7f3f000000bf0000803f0000003f00000000";
  "000000000000803f000000000000803f000000000000803f000000000000803f000000000000803f000000000000aa3e0000253fffff7fbf0000000000000000000000bf00000000000000";
  "3f00000000000000000000803f000000000000803f0000803f0000803f0000803f0000803f0000803f0000803f0000803f0000aa3e0000aa3effff7fbf00000000000000000000003f0000";
  "00000000003f00000000000000000000803f000000000000000000000000000000000000803f000000000000000000000000000000000000000000000000ffff7fbf000000000000000000";
  "00003f0000803f0000003f00000000000000000000803f0000000000000000000000000000000000000000000000000000000000000000000000000000253f0000253fffff7fbf00000000";
  "00000000000000bf0000803f000000bf000080bf0000000000000000000000000000803f000000000000803f000000000000803f000000000000803f000000000000783f0000aa3e000000";
  "0000000000ffff7fbf000000bf00000000000000bf000080bf0000000000000000000000000000803f0000803f0000803f0000803f0000803f0000803f0000803f0000803f0000283f0000";
  "aa3e0000000000000000ffff7fbf000000bf000000000000003f000080bf000000000000000000000000000000000000803f000000000000803f000000000000803f000000000000803f00";
  "00283f0000253f0000000000000000ffff7fbf000000bf0000803f0000003f000080bf00000000000000000000000000000000000000000000000000000000000000000000000000000000";
  "000000000000783f0000253f0000000000000000ffff7fbf0000003f000000000000003f00000000000000000000803f00000000000000000000803f000000000000803f00000000000080";
  "3f000000000000803f0000253f0000aa3effff7fbf00000000000000000000003f000000000000003f00000000000080bf0000000000000000000000000000000000000000000000000000";
  "00000000000000000000000000000000a43e0000a43effff7fbf0000000000000000000000bf000000000000003f00000000000080bf00000000000000000000803f000000000000803f00";
  "0000000000803f000000000000803f000000000000003c0000a43effff7fbf0000000000000000000000bf00000000000000bf00000000000080bf00000000000000000000803f0000803f";
  "0000803f0000803f0000803f0000803f0000803f0000803f0000003c0000003cffff7fbf00000000000000000000003f00000000000000bf00000000000080bf0000000000000000000000";
  "000000803f000000000000803f000000000000803f000000000000803f0000a43e0000003cffff7fbf00000000000000000000003f0000803f0000003f000000000000803f000000000000";
  "00000000803f000000000000803f000000000000803f000000000000803f000000000000253f0000a43effff7f3f00000000000000000000003f0000803f000000bf000000000000803f00";
  "000000000000000000803f0000803f0000803f0000803f0000803f0000803f0000803f0000803f0000253f0000003cffff7f3f0000000000000000000000bf0000803f000000bf00000000";
  "0000803f0000000000000000000000000000803f000000000000803f000000000000803f000000000000803f0000aa3e0000003cffff7f3f0000000000000000000000bf0000803f000000";
  "3f000000000000803f000000000000000000000000000000000000000000000000000000000000000000000000000000000000aa3e0000a43effff7f3f00000000000000000000003f0000";
  "803f000000bf0000000000000000000080bf000000000000803f000000000000803f000000000000803f000000000000803f000000000000783f0000a43effff7f3f000000000000000000";
  "00003f00000000000000bf0000000000000000000080bf000000000000803f0000803f0000803f0000803f0000803f0000803f0000803f0000803f0000783f0000003cffff7f3f00000000";
  "00000000000000bf00000000000000bf0000000000000000000080bf00000000000000000000803f000000000000803f000000000000803f000000000000803f0000283f0000003cffff7f";
  "3f0000000000000000000000bf0000803f000000bf0000000000000000000080bf0000000000000000000000000000000000000000000000000000000000000000000000000000283f0000";
  "a43effff7f3f00000000000000000000003f0000803f0000003f0000803f0000000000000000000000000000803f000000000000803f000000000000803f000000000000803f0000000000";
  "00a43e0000253f0000000000000000ffff7f3f0000003f000000000000003f0000803f0000000000000000000000000000803f0000803f0000803f0000803f0000803f0000803f0000803f";
  "0000803f0000003c0000253f0000000000000000ffff7f3f0000003f00000000000000bf0000803f000000000000000000000000000000000000803f000000000000803f00000000000080";
  "3f000000000000803f0000003c0000aa3e0000000000000000ffff7f3f0000003f0000803f000000bf0000803f000000000000000000000000000000000000000000000000000000000000";
  "00000000000000000000000000000000a43e0000aa3e0000000000000000ffff7f3f000000bf0000803f0000003f00000000000000000000803f000000000000803f000000000000803f00";
  "0000000000803f000000000000803f000000000000aa3e0000253fffff7fbf0000000000000000000000bf000000000000003f00000000000000000000803f000000000000803f0000803f";
  "0000803f0000803f0000803f0000803f0000803f0000803f0000aa3e0000aa3effff7fbf00000000000000000000003f000000000000003f00000000000000000000803f00000000000000";
  "0000000000000000000000803f000000000000000000000000000000000000000000000000ffff7fbf00000000000000000000003f0000803f0000003f00000000000000000000803f0000";
  "000000000000000000000000000000000000000000000000000000000000000000000000253f0000253fffff7fbf0000000000000000000000bf0000803f000000bf000080bf0000000000";
  "000000000000000000803f000000000000803f000000000000803f000000000000803f000000000000783f0000aa3e0000000000000000ffff7fbf000000bf00000000000000bf000080bf";
  "0000000000000000000000000000803f0000803f0000803f0000803f0000803f0000803f0000803f0000803f0000283f0000aa3e0000000000000000ffff7fbf000000bf00000000000000";
  "3f000080bf000000000000000000000000000000000000803f000000000000803f000000000000803f000000000000803f0000283f0000253f0000000000000000ffff7fbf000000bf0000";
  "803f0000003f000080bf00000000000000000000000000000000000000000000000000000000000000000000000000000000000000000000783f0000253f0000000000000000ffff7fbf00";
  "00003f000000000000003f00000000000000000000803f00000000000000000000803f000000000000803f000000000000803f000000000000803f0000253f0000aa3effff7fbf00000000";
  "00000000480000001600170014001400150016001800130010001000110018000e000f000c000c000d000e000a000b000800080009000a0006000700040004000500060002000300000000";
  "00010002001600170014001400150016001800130010001000110018000e000f000c000c000d000e000a000b000800080009000a0006000700040004000500060002000300000000000100";
  "020008000000000000bf00000000000000bf0000003f0000803f0000003f010000000000803f000000000000000000000000000000000000803f0000000000000000000000000000000000";
  "00803f000000000000000000000000000000000000803f000000bf00000000000000bf0000003f0000803f0000003f010000000000803f000000000000000000000000000000000000803f";
  "000000000000000000000000000000000000803f000000000000000000000000000000000000803f01000000000000000d0000005374617469634d6573682e667804000000426173650200";
  "00003b0000006f626a656374732f7374617469636f626a656374732f746573742f6576696c5f626f782f74657874757265732f6576696c5f626f785f632e64647325000000436f6d6d6f6e";
  "5c54657874757265735c53706563756c61724c55545f706f7733362e64647300000000000000002400000019000000801f0000ffff0000000000bf00000000000000bf0000003f0000803f";
  "0000003f01000000000000000d0000005374617469634d6573682e66780400000042617365020000003b0000006f626a656374732f7374617469636f626a656374732f746573742f657669";
  "6c5f626f782f74657874757265732f6576696c5f626f785f632e64647325000000436f6d6d6f6e5c54657874757265735c53706563756c61724c55545f706f7733362e6464731900000024";
  "0000002400000019000000801f0000ffff0000000000bf00000000000000bf0000003f0000803f0000003f"]%string.

(** evil_box_lods/Meshes/evil_box_lods.staticmesh, 4841 bytes. *)
Definition evil_lods_file : bytes := Eval vm_compute in flat_map unhex [
  "000000000b0000000000000000000000000000000001000000020000000a000000000000000200000000000c0002000300000018000400020000001c000100050000002400010005010000";
  "2c0001000502000034000100050300003c00010005040000440002000600ff000000110000000400000050000000320000000000003f000000000000003f00000000000080bf0000000000";
  "00000000000000000000000000000000000000000000000000000000000000000000000000a43e0000a43effff7fbf0000000000000000000000bf000000000000003f00000000000080bf";
  "00000000000000000000803f000000000000803f000000000000803f000000000000803f000000000000003c0000a43effff7fbf0000000000000000000000bf00000000000000bf000000";
  "00000080bf00000000000000000000803f0000803f0000803f0000803f0000803f0000803f0000803f0000803f0000003c0000003cffff7fbf00000000000000000000003f000000000000";
  "00bf00000000000080bf0000000000000000000000000000803f000000000000803f000000000000803f000000000000803f0000a43e0000003cffff7fbf00000000000000000000003f00";
  "00803f0000003f000000000000803f00000000000000000000803f000000000000803f000000000000803f000000000000803f000000000000253f0000a43effff7f3f0000000000000000";
  "0000003f0000803f000000bf000000000000803f00000000000000000000803f0000803f0000803f0000803f0000803f0000803f0000803f0000803f0000253f0000003cffff7f3f000000";
  "0000000000000000bf0000803f000000bf000000000000803f0000000000000000000000000000803f000000000000803f000000000000803f000000000000803f0000aa3e0000003cffff";
  "7f3f0000000000000000000000bf0000803f0000003f000000000000803f000000000000000000000000000000000000000000000000000000000000000000000000000000000000aa3e00";
  "00a43effff7f3f00000000000000000000003f0000803f000000bf0000000000000000000080bf000000000000803f000000000000803f000000000000803f000000000000803f00000000";
  "0000783f0000a43effff7f3f00000000000000000000003f00000000000000bf0000000000000000000080bf000000000000803f0000803f0000803f0000803f0000803f0000803f000080";
  "3f0000803f0000783f0000003cffff7f3f0000000000000000000000bf00000000000000bf0000000000000000000080bf00000000000000000000803f000000000000803f000000000000";
  "803f000000000000803f0000283f0000003cffff7f3f0000000000000000000000bf0000803f000000bf0000000000000000000080bf000000000000000000000000000000000000000000";
  "0000000000000000000000000000000000283f0000a43effff7f3f00000000000000000000003f0000803f0000003f0000803f0000000000000000000000000000803f000000000000803f";
  "000000000000803f000000000000803f000000000000a43e0000253f0000000000000000ffff7f3f0000003f000000000000003f0000803f0000000000000000000000000000803f000080";
  "3f0000803f0000803f0000803f0000803f0000803f0000803f0000003c0000253f0000000000000000ffff7f3f0000003f00000000000000bf0000803f0000000000000000000000000000";
  "00000000803f000000000000803f000000000000803f000000000000803f0000003c0000aa3e0000000000000000ffff7f3f0000003f0000803f000000bf0000803f000000000000000000";
  "00000000000000000000000000000000000000000000000000000000000000000000000000a43e0000aa3e0000000000000000ffff7f3f000000bf0000803f0000003f0000000000000000";
  "0000803f000000000000803f000000000000803f000000000000803f000000000000803f000000000000aa3e0000253fffff7fbf0000000000000000000000bf000000000000003f000000";
  "00000000000000803f000000000000803f0000803f0000803f0000803f0000803f0000803f0000803f0000803f0000aa3e0000aa3effff7fbf00000000000000000000003f000000000000";
  "003f00000000000000000000803f000000000000000000000000000000000000803f000000000000000000000000000000000000000000000000ffff7fbf00000000000000000000003f00";
  "00803f0000003f00000000000000000000803f0000000000000000000000000000000000000000000000000000000000000000000000000000253f0000253fffff7fbf0000000000000000";
  "000000bf0000803f000000bf000080bf0000000000000000000000000000803f000000000000803f000000000000803f000000000000803f000000000000783f0000aa3e00000000000000";
  "00ffff7fbf000000bf00000000000000bf000080bf0000000000000000000000000000803f0000803f0000803f0000803f0000803f0000803f0000803f0000803f0000283f0000aa3e0000";
  "000000000000ffff7fbf000000bf000000000000003f000080bf000000000000000000000000000000000000803f000000000000803f000000000000803f000000000000803f0000283f00";
  "00253f0000000000000000ffff7fbf000000bf0000803f0000003f000080bf0000000000000000000000000000000000000000000000000000000000000000000000000000000000000000";
  "0000783f0000253f0000000000000000ffff7fbf0000003f000000000000003f00000000000000000000803f00000000000000000000803f000000000000803f000000000000803f000000";
  "000000803f0000253f0000aa3effff7fbf00000000000000000000003f000000000000003f00000000000080bf000000000000000000000000000000000000000000000000000000000000";
  "0000000000000000000000009c3e00009c3effff7fbf0000000000000000000000bf000000000000003f00000000000080bf00000000000000000000803f000000000000803f0000000000";
  "00803f000000000000803f000000000000803c00009c3effff7fbf0000000000000000000000bf00000000000000bf00000000000080bf00000000000000000000803f0000803f0000803f";
  "0000803f0000803f0000803f0000803f0000803f0000803c0000803cffff7fbf00000000000000000000003f00000000000000bf00000000000080bf000000000000000000000000000080";
  "3f000000000000803f000000000000803f000000000000803f00009c3e0000803cffff7fbf00000000000000000000003f0000803f0000003f000000000000803f00000000000000000000";
  "803f000000000000803f000000000000803f000000000000803f0000000000001e3f00009c3effff7f3f00000000000000000000003f0000803f000000bf000000000000803f0000000000";
  "0000000000803f0000803f0000803f0000803f0000803f0000803f0000803f0000803f00001e3f0000803cffff7f3f0000000000000000000000bf0000803f000000bf000000000000803f";
  "0000000000000000000000000000803f000000000000803f000000000000803f000000000000803f0000a83e0000803cffff7f3f0000000000000000000000bf0000803f0000003f000000";
  "000000803f000000000000000000000000000000000000000000000000000000000000000000000000000000000000a83e00009c3effff7f3f00000000000000000000003f0000803f0000";
  "00bf0000000000000000000080bf000000000000803f000000000000803f000000000000803f000000000000803f0000000000006e3f00009c3effff7f3f00000000000000000000003f00";
  "000000000000bf0000000000000000000080bf000000000000803f0000803f0000803f0000803f0000803f0000803f0000803f0000803f00006e3f0000803cffff7f3f0000000000000000";
  "000000bf00000000000000bf0000000000000000000080bf00000000000000000000803f000000000000803f000000000000803f000000000000803f0000243f0000803cffff7f3f000000";
  "0000000000000000bf0000803f000000bf0000000000000000000080bf0000000000000000000000000000000000000000000000000000000000000000000000000000243f00009c3effff";
  "7f3f00000000000000000000003f0000803f0000003f0000803f0000000000000000000000000000803f000000000000803f000000000000803f000000000000803f0000000000009c3e00";
  "001e3f0000000000000000ffff7f3f0000003f000000000000003f0000803f0000000000000000000000000000803f0000803f0000803f0000803f0000803f0000803f0000803f0000803f";
  "0000803c00001e3f0000000000000000ffff7f3f0000003f00000000000000bf0000803f000000000000000000000000000000000000803f000000000000803f000000000000803f000000";
  "000000803f0000803c0000a83e0000000000000000ffff7f3f0000003f0000803f000000bf0000803f00000000000000000000000000000000000000000000000000000000000000000000";
  "0000000000000000000000009c3e0000a83e0000000000000000ffff7f3f000000bf0000803f0000003f00000000000000000000803f000000000000803f000000000000803f0000000000";
  "00803f000000000000803f000000000000a83e00001e3fffff7fbf0000000000000000000000bf000000000000003f00000000000000000000803f000000000000803f0000803f0000803f";
  "0000803f0000803f0000803f0000803f0000803f0000a83e0000a83effff7fbf00000000000000000000003f000000000000003f00000000000000000000803f0000000000000000000000";
  "00000000000000803f000000000000000000000000000000000000000000000000ffff7fbf00000000000000000000003f0000803f0000003f00000000000000000000803f000000000000";
  "00000000000000000000000000000000000000000000000000000000000000001e3f00001e3fffff7fbf0000000000000000000000bf0000803f000000bf000080bf000000000000000000";
  "0000000000803f000000000000803f000000000000803f000000000000803f0000000000006e3f0000a83e0000000000000000ffff7fbf000000bf00000000000000bf000080bf00000000";
  "00000000000000000000803f0000803f0000803f0000803f0000803f0000803f0000803f0000803f0000243f0000a83e0000000000000000ffff7fbf000000bf000000000000003f000080";
  "bf000000000000000000000000000000000000803f000000000000803f000000000000803f000000000000803f0000243f00001e3f0000000000000000ffff7fbf000000bf0000803f0000";
  "003f000080bf000000000000000000000000000000000000000000000000000000000000000000000000000000000000000000006e3f00001e3f0000000000000000ffff7fbf0000003f00";
  "0000000000003f00000000000000000000803f00000000000000000000803f000000000000803f000000000000803f000000000000803f00001e3f0000a83effff7fbf0000000000000000";
  "480000001600170014001400150016001800130010001000110018000e000f000c000c000d000e000a000b000800080009000a000600070004000400050006000200030000000000010002";
  "001600170014001400150016001800130010001000110018000e000f000c000c000d000e000a000b000800080009000a000600070004000400050006000200030000000000010002000800";
  "0000000000bf00000000000000bf0000003f0000803f0000003f010000000000803f000000000000000000000000000000000000803f000000000000000000000000000000000000803f00";
  "0000000000000000000000000000000000803f000000bf00000000000000bf0000003f0000803f0000003f010000000000803f000000000000000000000000000000000000803f00000000";
  "0000000000000000000000000000803f000000000000000000000000000000000000803f01000000000000000d0000005374617469634d6573682e66780400000042617365020000003c00";
  "00002f6f626a656374732f7374617469636f626a656374732f746573742f6576696c5f626f782f74657874757265732f6576696c5f626f785f632e64647325000000436f6d6d6f6e5c5465";
  "7874757265735c53706563756c61724c55545f706f7733362e64647300000000000000002400000019000000801f0000ffff0000000000bf00000000000000bf0000003f0000803f000000";
  "3f01000000000000000d0000005374617469634d6573682e66780400000042617365020000003c0000002f6f626a656374732f7374617469636f626a656374732f746573742f6576696c5f";
  "626f782f74657874757265732f6576696c5f626f785f632e64647325000000436f6d6d6f6e5c54657874757265735c53706563756c61724c55545f706f7733362e64647319000000240000";
  "002400000019000000801f0000ffff0000000000bf00000000000000bf0000003f0000803f0000003f"]%string.

(** evil_box/Meshes/evil_box.collisionmesh, 1511 bytes. *)
Definition evil_col_file : bytes := Eval vm_compute in flat_map unhex [
  "000000000a000000010000000100000003000000000000000c0000000000010002000000020003000000000004000500060000000600070004000000000003000500000005000400000000";
  "0003000200060000000600050003000000020001000700000007000600020000000100000004000000040007000100000008000000000000bf00000000000000bf000000bf000000000000";
  "003f0000003f000000000000003f0000003f00000000000000bf000000bf0000803f000000bf0000003f0000803f000000bf0000003f0000803f0000003f000000bf0000803f0000003f00";
  "000000000000000000000000000000000000bf00000000000000bf0000003f0000803f0000003f31000000bf00000000000000bf0000003f0000803f0000003f03000000000000bf040002";
  "0000000000010000000000003f080000020200000002000000000000000d00020604000000060000000c0000000a000b000600070000000100040005000200030008000900240000000a00";
  "00000800000001000000060000000400000000000000050000000700000003000000090000000b00000002000000010000000700000005000000020000000a000000040000000100000009";
  "00000007000000020000000400000006000000000000000b0000000900000003000000060000000800000000000000050000000b00000003000000080000000a000000010000000c000000";
  "000001000200000002000300000000000400050006000000060007000400000000000300050000000500040000000000030002000600000006000500030000000200010007000000070006";
  "00020000000100000004000000040007000100000008000000000000bf00000000000000bf000000bf000000000000003f0000003f000000000000003f0000003f00000000000000bf0000";
  "00bf0000803f000000bf0000003f0000803f000000bf0000003f0000803f0000003f000000bf0000803f0000003f00000000000000000000000000000000000000bf00000000000000bf00";
  "00003f0000803f0000003f31000000bf00000000000000bf0000003f0000803f0000003f03000000000000bf0400020000000000010000000000003f080000020200000002000000000000";
  "000d00020604000000060000000c0000000a000b000600070000000100040005000200030008000900240000000a0000000800000001000000060000000400000000000000050000000700";
  "000003000000090000000b00000002000000010000000700000005000000020000000a00000004000000010000000900000007000000020000000400000006000000000000000b00000009";
  "00000003000000060000000800000000000000050000000b00000003000000080000000a000000020000000c00000000000100020000000200030000000000040005000600000006000700";
  "040000000000030005000000050004000000000003000200060000000600050003000000020001000700000007000600020000000100000004000000040007000100000008000000000000";
  "bf00000000000000bf000000bf000000000000003f0000003f000000000000003f0000003f00000000000000bf000000bf0000803f000000bf0000003f0000803f000000bf0000003f0000";
  "803f0000003f000000bf0000803f0000003f00000000000000000000000000000000000000bf00000000000000bf0000003f0000803f0000003f31000000bf00000000000000bf0000003f";
  "0000803f0000003f03000000000000bf0400020000000000010000000000003f080000020200000002000000000000000d00020604000000060000000c0000000a000b0006000700000001";
  "00040005000200030008000900240000000a0000000800000001000000060000000400000000000000050000000700000003000000090000000b0000000200000001000000070000000500";
  "0000020000000a00000004000000010000000900000007000000020000000400000006000000000000000b0000000900000003000000060000000800000000000000050000000b00000003";
  "000000080000000a000000"]%string.

(** evil_box_lods/Meshes/evil_box_lods.collisionmesh, 1519 bytes. *)
Definition evil_col_lods_file : bytes := Eval vm_compute in flat_map unhex [
  "000000000a000000020000000100000003000000000000000c0000000000010002000000020003000000000004000500060000000600070004000000000003000500000005000400000000";
  "0003000200060000000600050003000000020001000700000007000600020000000100000004000000040007000100000008000000000000bf00000000000000bf000000bf000000000000";
  "003f0000003f000000000000003f0000003f00000000000000bf000000bf0000803f000000bf0000003f0000803f000000bf0000003f0000803f0000003f000000bf0000803f0000003f00";
  "000000000000000000000000000000000000bf00000000000000bf0000003f0000803f0000003f31000000bf00000000000000bf0000003f0000803f0000003f03000000000000bf040002";
  "0000000000010000000000003f080000020200000002000000000000000d00020604000000060000000c0000000a000b000600070000000100040005000200030008000900240000000a00";
  "00000800000001000000060000000400000000000000050000000700000003000000090000000b00000002000000010000000700000005000000020000000a000000040000000100000009";
  "00000007000000020000000400000006000000000000000b0000000900000003000000060000000800000000000000050000000b00000003000000080000000a000000010000000c000000";
  "000001000200000002000300000000000400050006000000060007000400000000000300050000000500040000000000030002000600000006000500030000000200010007000000070006";
  "00020000000100000004000000040007000100000008000000000000bf00000000000000bf000000bf000000000000003f0000003f000000000000003f0000003f00000000000000bf0000";
  "00bf0000803f000000bf0000003f0000803f000000bf0000003f0000803f0000003f000000bf0000803f0000003f00000000000000000000000000000000000000bf00000000000000bf00";
  "00003f0000803f0000003f31000000bf00000000000000bf0000003f0000803f0000003f03000000000000bf0400020000000000010000000000003f080000020200000002000000000000";
  "000d00020604000000060000000c0000000a000b000600070000000100040005000200030008000900240000000a0000000800000001000000060000000400000000000000050000000700";
  "000003000000090000000b00000002000000010000000700000005000000020000000a00000004000000010000000900000007000000020000000400000006000000000000000b00000009";
  "00000003000000060000000800000000000000050000000b00000003000000080000000a000000020000000c00000000000100020000000200030000000000040005000600000006000700";
  "040000000000030005000000050004000000000003000200060000000600050003000000020001000700000007000600020000000100000004000000040007000100000008000000000000";
  "bf00000000000000bf000000bf000000000000003f0000003f000000000000003f0000003f00000000000000bf000000bf0000803f000000bf0000003f0000803f000000bf0000003f0000";
  "803f0000003f000000bf0000803f0000003f00000000000000000000000000000000000000bf00000000000000bf0000003f0000803f0000003f31000000bf00000000000000bf0000003f";
  "0000803f0000003f03000000000000bf0400020000000000010000000000003f080000020200000002000000000000000d00020604000000060000000c0000000a000b0006000700000001";
  "00040005000200030008000900240000000a0000000800000001000000060000000400000000000000050000000700000003000000090000000b0000000200000001000000070000000500";
  "0000020000000a00000004000000010000000900000007000000020000000400000006000000000000000b0000000900000003000000060000000800000000000000050000000b00000003";
  "000000080000000a0000000100000000000000"]%string.
