(** The shared test vectors of the Go-independent suites, /repo/integration-test-data.json (read
    by integration.rs and integration.test.ts), run through every model.  These are tests of the
    models, not proofs: they check that the models behave like the code on the data its authors
    use to check the implementations against each other.  No property rests on this file. *)
From Verif Require Import Base Spec TsSpec.
From Verif Require V1Model V2Model RustModel TsModel.

(** integration-test-data.json, each encodedValue base64-decoded, floats as IEEE bits *)
Definition vectors : list (list value * bytes) :=
  [
   (* None *) ([VNil],
     [0]);
   (* true Bool *) ([VBool true],
     [7; 1]);
   (* false Bool *) ([VBool false],
     [7; 0]);
   (* U8 *) ([VU8 32],
     [8; 32]);
   (* U16 *) ([VU16 1024],
     [9; 128; 8]);
   (* U32 *) ([VU32 4294967290],
     [10; 250; 255; 255; 255; 15]);
   (* U64 *) ([VU64 18446744073709551610],
     [11; 250; 255; 255; 255; 255; 255; 255; 255; 255; 1]);
   (* I32 *) ([VI32 (-2147483648)],
     [12; 255; 255; 255; 255; 15]);
   (* I64 *) ([VI64 (-9223372036854775808)],
     [13; 255; 255; 255; 255; 255; 255; 255; 255; 255; 1]);
   (* F32 *) ([VF32 0xc8519e16],
     [14; 200; 81; 158; 22]);
   (* F64 *) ([VF64 0xc26ad7f29abca781],
     [15; 194; 106; 215; 242; 154; 188; 167; 129]);
   (* Array *) ([VSlice 3 5; VString [49]; VString [50]; VString [51]],
     [1; 5; 10; 3; 5; 10; 1; 49; 5; 10; 1; 50; 5; 10; 1; 51]);
   (* Map *) ([VMap 3 5 10; VString [49]; VU32 1; VString [50]; VU32 2; VString [51]; VU32 3],
     [2; 5; 10; 10; 3; 5; 10; 1; 49; 10; 1; 5; 10; 1; 50; 10; 2; 5; 10; 1; 51; 10; 3]);
   (* nil or empty Map *) ([VMap 0 5 10],
     [2; 5; 10; 10; 0]);
   (* Bytes *) ([VBytes [84; 101; 115; 116; 32; 83; 116; 114; 105; 110; 103]],
     [4; 10; 11; 84; 101; 115; 116; 32; 83; 116; 114; 105; 110; 103]);
   (* String *) ([VString [84; 101; 115; 116; 32; 83; 116; 114; 105; 110; 103]],
     [5; 10; 11; 84; 101; 115; 116; 32; 83; 116; 114; 105; 110; 103]);
   (* Error *) ([VError [84; 101; 115; 116; 32; 83; 116; 114; 105; 110; 103]],
     [6; 5; 10; 11; 84; 101; 115; 116; 32; 83; 116; 114; 105; 110; 103])  ].

Definition no_spare : nat -> Z -> bytes := fun _ _ => [].
Definition plain : TsModel.engine := {| TsModel.nan32 := fun n => n; TsModel.nan64 := fun n => n |}.

Example vectors_spec : map (fun p => wires (fst p)) vectors = map snd vectors.
Proof. vm_compute. reflexivity. Qed.
Example vectors_v1_encode :
  map (fun p => match V1Model.encode_all no_spare V1Model.NewBuffer (fst p) with
                | Ok b => Some (V1Model.Bytes b) | _ => None end) vectors
  = map (fun p => Some (snd p)) vectors.
Proof. vm_compute. reflexivity. Qed.
Example vectors_v1_decode :
  map (fun p => read_all (V1Model.decode 64 None) (map want (fst p)) (snd p)) vectors
  = map (fun p => Some (fst p, [])) vectors.
Proof. vm_compute. reflexivity. Qed.
Example vectors_v2_encode :
  map (fun p => match V2Model.encode_all no_spare V2Model.NewBuffer (fst p) with
                | Ok b => V2Model.Bytes b | x => Ok [] end) vectors
  = map (fun p => Ok (snd p)) vectors.
Proof. vm_compute. reflexivity. Qed.
Example vectors_v2_decode :
  map (fun p => read_all (V2Model.decode 64 []) (map want (fst p)) (snd p)) vectors
  = map (fun p => Some (fst p, [])) vectors.
Proof. vm_compute. reflexivity. Qed.
Example vectors_rust_encode :
  map (fun p => RustModel.encode_all (RustModel.mkcur [] 0) (fst p)) vectors
  = map (fun p => Ok (RustModel.mkcur (snd p) (zlen (snd p)))) vectors.
Proof. vm_compute. reflexivity. Qed.
Example vectors_rust_decode :
  map (fun p => RustModel.decode_all (RustModel.mkrt true 64) (map want (fst p)) (RustModel.mkcur (snd p) 0)) vectors
  = map (fun p => RustModel.ROk (fst p) (RustModel.mkcur (snd p) (zlen (snd p)))) vectors.
Proof. vm_compute. reflexivity. Qed.
Example vectors_ts_encode :
  map (fun p => match TsModel.ts_encode_all plain (map (from_wire plain) (fst p)) (TsModel.newEncoder None) with
                | TsModel.EOk s => match TsModel.bytes_view s with
                                   | Ok w => TsModel.view_content s w | _ => [] end
                | _ => [] end) vectors
  = map snd vectors.
Proof. vm_compute. reflexivity. Qed.
Example vectors_ts_decode :
  map (fun p => ts_read_all plain (map want (fst p)) (TsModel.newDecoder (snd p) 0 (zlen (snd p)))) vectors
  = map (fun p => TsModel.DOk (map (from_wire plain) (fst p))
                    (TsModel.mkdec (snd p) 0 (zlen (snd p)) (zlen (snd p)))) vectors.
Proof. vm_compute. reflexivity. Qed.
