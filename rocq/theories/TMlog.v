(** Validation of the log model against the byte arrays of the tests in sync/mlog.rs:144-214. *)
From Verif Require Import MSync.

Definition s_root_sg : str := [114; 111; 111; 116; 46; 115; 103].
Definition s_root_sg_d1_s1 : str := [114; 111; 111; 116; 46; 115; 103; 46; 100; 49; 46; 115; 49].
Definition exp_sg : list byte := [0x00; 0x00; 0x00; 0x14; 0x03; 0x00; 0x00; 0x00; 0x07; 0x72; 0x6F; 0x6F; 0x74; 0x2E;
            0x73; 0x67; 0x00; 0x00; 0x00; 0x00; 0x00; 0x00; 0x00; 0x00; 0x00; 0x00; 0x00; 0x00;
            0xD6; 0x4F; 0xBD; 0x17].
Definition exp_ts : list byte := [0x00; 0x00; 0x00; 0x29; 0x04; 0x00; 0x00; 0x00; 0x0D; 0x72; 0x6F; 0x6F; 0x74; 0x2E; 0x73;
            0x67; 0x2E; 0x64; 0x31; 0x2E; 0x73; 0x31; 0x01; 0x00; 0x00; 0xFF; 0xFF; 0xFF; 0xFF;
            0xFF; 0xFF; 0xFF; 0xFF; 0x00; 0x00; 0x00; 0x00; 0x00; 0x00; 0x00; 0x00; 0x00; 0x00;
            0x00; 0x00; 0x00; 0x00; 0x00; 0x00; 0x4E; 0xF4; 0xB9; 0x3D].
Example test_write_mlog_set_sg :
  wbytes (mlog_record (mlog_set_storage_group_plan s_root_sg [])) = exp_sg.
Proof. vm_compute. reflexivity. Qed.
Example test_write_mlog_create_ts :
  wbytes (mlog_record (mlog_create_plan s_root_sg_d1_s1 INT32 PLAIN UNCOMPRESSED [])) = exp_ts.
Proof. vm_compute. reflexivity. Qed.
Example test_write_mlog :
  write_mlog s_root_sg [([100; 49], [([115; 49], mkMS INT32 PLAIN UNCOMPRESSED)])] = exp_sg ++ exp_ts.
Proof. vm_compute. reflexivity. Qed.
