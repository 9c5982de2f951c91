(** The unit tests of src/lib/gen/ts.rs:348-1131, input and expected text copied by script. *)
From Verif Require Import TsGen.

(** commmon_gen, ts.rs:355 *)
Example t_commmon_gen : gen_common NL = "
import { Reader, Writer } from ""packet"";
".
Proof. vm_compute. reflexivity. Qed.

(** simple_struct_gen, ts.rs:369 *)
Example t_simple_struct_gen : gen_decls map_to_list {[ "Position" := ("Position", (TStruct [
    SField "x" "float" (TBuiltin Float) false false; 
    SField "y" "float" (TBuiltin Float) false false])) ]} "Test" NL = "
export namespace Test {
    export interface Position {
        x: number,
        y: number,
    }
}
".
Proof. vm_compute. reflexivity. Qed.

(** struct_with_optional_gen, ts.rs:412 *)
Example t_struct_with_optional_gen : gen_decls map_to_list {[ "A" := ("A", (TStruct [
    SField "a" "float" (TBuiltin Float) false true; 
    SField "b" "float" (TBuiltin Float) true true; 
    SField "c" "float" (TBuiltin Float) false false])) ]} "Test" NL = "
export namespace Test {
    export interface A {
        a?: number,
        b?: number[],
        c: number,
    }
}
".
Proof. vm_compute. reflexivity. Qed.

(** enum_gen, ts.rs:462 *)
Example t_enum_gen : gen_decls map_to_list {[ "Flag" := ("Flag", (TEnum (Enum U8 [EnumVariant "A" 0; EnumVariant "B" 1]))) ]} "Test" NL = "
export namespace Test {
    export const enum Flag {
        A = 1 << 0,
        B = 1 << 1,
    }
}
".
Proof. vm_compute. reflexivity. Qed.

(** complex_struct_gen, ts.rs:493 *)
Example t_complex_struct_gen : gen_decls map_to_list {[ "A" := ("A", (TStruct [
    SField "builtin_scalar" "uint8" (TBuiltin Uint8) false false; 
    SField "builtin_array" "uint8" (TBuiltin Uint8) true false; 
    SField "string_scalar" "string" (TBuiltin BString) false false; 
    SField "string_array" "string" (TBuiltin BString) true false; 
    SField "enum_scalar" "Flag" (TEnum (Enum U8 [])) false false; 
    SField "enum_array" "Flag" (TEnum (Enum U8 [])) true false; 
    SField "struct_scalar" "Position" (TStruct []) false false; 
    SField "struct_array" "Position" (TStruct []) true false])) ]} "Test" NL = "
export namespace Test {
    export interface A {
        builtin_scalar: number,
        builtin_array: number[],
        string_scalar: string,
        string_array: string[],
        enum_scalar: Flag,
        enum_array: Flag[],
        struct_scalar: Position,
        struct_array: Position[],
    }
}
".
Proof. vm_compute. reflexivity. Qed.

(** optional_impl_gen, ts.rs:590 *)
Example t_optional_impl_gen :
  let test := (Export_ "Test" [
    SField "a" "uint8" (TBuiltin Uint8) false true; 
    SField "b" "uint8" (TBuiltin Uint8) true true; 
    SField "c" "uint8" (TBuiltin Uint8) false false]) in
  gen_impl test NL = Ok "
export class Test {
    constructor(
        public a: number | undefined,
        public b: number[] | undefined,
        public c: number,
    ) {}
    static read(data: ArrayBuffer): Test | null {
        let reader = new Reader(data);
        let output = Object.create(Test);
        if (reader.read_uint8() > 0) {
            output.a = reader.read_uint8();
        } else {
            output.a = undefined;
        }
        if (reader.read_uint8() > 0) {
            let output_b_len = reader.read_uint32();
            output.b = new Array(output_b_len);
            for (let output_b_index = 0; output_b_index < output_b_len; ++output_b_index) {
                let output_b_item: any = undefined;
                output_b_item = reader.read_uint8();
                output.b[output_b_index] = output_b_item;
            }
        } else {
            output.b = undefined;
        }
        output.c = reader.read_uint8();
        if (reader.failed) return null;
        return output;
    }
    write(buffer?: ArrayBuffer): ArrayBuffer {
        let writer = buffer ? new Writer(buffer) : new Writer();
        let this_a = this.a;
        switch (this_a) {
            case undefined: case null: writer.write_uint8(0); break;
            default: {
                writer.write_uint8(1);
                writer.write_uint8(this_a);
            }
        }
        let this_b = this.b;
        switch (this_b) {
            case undefined: case null: writer.write_uint8(0); break;
            default: {
                writer.write_uint8(1);
                writer.write_uint32(this_b.length);
                for (let this_b_index = 0; this_b_index < this_b.length; ++this_b_index) {
                    let this_b_item = this_b[this_b_index];
                    writer.write_uint8(this_b_item);
                }
            }
        }
        writer.write_uint8(this.c);
        return writer.finish();
    }
}
".
Proof. vm_compute. reflexivity. Qed.

(** nested_soa_impl_gen, ts.rs:684 *)
Example t_nested_soa_impl_gen :
  let test_a := [
    SField "first" "uint8" (TBuiltin Uint8) true false; 
    SField "second" "uint8" (TBuiltin Uint8) true false] in
  let test_b := (Export_ "TestB" [
    SField "test_a" "TestA" (TStruct test_a) true false]) in
  gen_impl test_b NL = Ok "
export class TestB {
    constructor(
        public test_a: TestB.TestA[],
    ) {}
    static read(data: ArrayBuffer): TestB | null {
        let reader = new Reader(data);
        let output = Object.create(TestB);
        let output_test_a_len = reader.read_uint32();
        output.test_a = new Array(output_test_a_len);
        for (let output_test_a_index = 0; output_test_a_index < output_test_a_len; ++output_test_a_index) {
            let output_test_a_item: any = {};
            let output_test_a_item_first_len = reader.read_uint32();
            output_test_a_item.first = new Array(output_test_a_item_first_len);
            for (let output_test_a_item_first_index = 0; output_test_a_item_first_index < output_test_a_item_first_len; ++output_test_a_item_first_index) {
                let output_test_a_item_first_item: any = undefined;
                output_test_a_item_first_item = reader.read_uint8();
                output_test_a_item.first[output_test_a_item_first_index] = output_test_a_item_first_item;
            }
            let output_test_a_item_second_len = reader.read_uint32();
            output_test_a_item.second = new Array(output_test_a_item_second_len);
            for (let output_test_a_item_second_index = 0; output_test_a_item_second_index < output_test_a_item_second_len; ++output_test_a_item_second_index) {
                let output_test_a_item_second_item: any = undefined;
                output_test_a_item_second_item = reader.read_uint8();
                output_test_a_item.second[output_test_a_item_second_index] = output_test_a_item_second_item;
            }
            output.test_a[output_test_a_index] = output_test_a_item;
        }
        if (reader.failed) return null;
        return output;
    }
    write(buffer?: ArrayBuffer): ArrayBuffer {
        let writer = buffer ? new Writer(buffer) : new Writer();
        writer.write_uint32(this.test_a.length);
        for (let this_test_a_index = 0; this_test_a_index < this.test_a.length; ++this_test_a_index) {
            let this_test_a_item = this.test_a[this_test_a_index];
            writer.write_uint32(this_test_a_item.first.length);
            for (let this_test_a_item_first_index = 0; this_test_a_item_first_index < this_test_a_item.first.length; ++this_test_a_item_first_index) {
                let this_test_a_item_first_item = this_test_a_item.first[this_test_a_item_first_index];
                writer.write_uint8(this_test_a_item_first_item);
            }
            writer.write_uint32(this_test_a_item.second.length);
            for (let this_test_a_item_second_index = 0; this_test_a_item_second_index < this_test_a_item.second.length; ++this_test_a_item_second_index) {
                let this_test_a_item_second_item = this_test_a_item.second[this_test_a_item_second_index];
                writer.write_uint8(this_test_a_item_second_item);
            }
        }
        return writer.finish();
    }
}
".
Proof. vm_compute. reflexivity. Qed.

(** complex_struct_impl_gen, ts.rs:774 *)
Example t_complex_struct_impl_gen :
  let flag := (Enum U8 [EnumVariant "A" 0; EnumVariant "B" 1]) in
  let position := [
    SField "x" "float" (TBuiltin Float) false false; 
    SField "y" "float" (TBuiltin Float) false false] in
  let test := (Export_ "Test" [
    SField "builtin_scalar" "uint8" (TBuiltin Uint8) false false; 
    SField "builtin_array" "uint8" (TBuiltin Uint8) true false; 
    SField "string_scalar" "string" (TBuiltin BString) false false; 
    SField "string_array" "string" (TBuiltin BString) true false; 
    SField "enum_scalar" "Flag" (TEnum flag) false false; 
    SField "enum_array" "Flag" (TEnum flag) true false; 
    SField "struct_scalar" "Position" (TStruct position) false false; 
    SField "struct_array" "Position" (TStruct position) true false; 
    SField "opt_scalar" "uint8" (TBuiltin Uint8) false true; 
    SField "opt_enum" "Flag" (TEnum flag) false true; 
    SField "opt_struct" "Position" (TStruct position) false true]) in
  gen_impl test NL = Ok "
export class Test {
    constructor(
        public builtin_scalar: number,
        public builtin_array: number[],
        public string_scalar: string,
        public string_array: string[],
        public enum_scalar: Test.Flag,
        public enum_array: Test.Flag[],
        public struct_scalar: Test.Position,
        public struct_array: Test.Position[],
        public opt_scalar: number | undefined,
        public opt_enum: Test.Flag | undefined,
        public opt_struct: Test.Position | undefined,
    ) {}
    static read(data: ArrayBuffer): Test | null {
        let reader = new Reader(data);
        let output = Object.create(Test);
        output.builtin_scalar = reader.read_uint8();
        let output_builtin_array_len = reader.read_uint32();
        output.builtin_array = new Array(output_builtin_array_len);
        for (let output_builtin_array_index = 0; output_builtin_array_index < output_builtin_array_len; ++output_builtin_array_index) {
            let output_builtin_array_item: any = undefined;
            output_builtin_array_item = reader.read_uint8();
            output.builtin_array[output_builtin_array_index] = output_builtin_array_item;
        }
        let output_string_scalar_len = reader.read_uint32();
        output.string_scalar = reader.read_string(output_string_scalar_len);
        let output_string_array_len = reader.read_uint32();
        output.string_array = new Array(output_string_array_len);
        for (let output_string_array_index = 0; output_string_array_index < output_string_array_len; ++output_string_array_index) {
            let output_string_array_item: any = undefined;
            let output_string_array_item_len = reader.read_uint32();
            output_string_array_item = reader.read_string(output_string_array_item_len);
            output.string_array[output_string_array_index] = output_string_array_item;
        }
        let output_enum_scalar_temp = reader.read_uint8();
        if (1 <= output_enum_scalar_temp && output_enum_scalar_temp <= 2) output.enum_scalar = output_enum_scalar_temp;
        else reader.failed = true;
        let output_enum_array_len = reader.read_uint32();
        output.enum_array = new Array(output_enum_array_len);
        for (let output_enum_array_index = 0; output_enum_array_index < output_enum_array_len; ++output_enum_array_index) {
            let output_enum_array_item: any = undefined;
            let output_enum_array_item_temp = reader.read_uint8();
            if (1 <= output_enum_array_item_temp && output_enum_array_item_temp <= 2) output_enum_array_item = output_enum_array_item_temp;
            else reader.failed = true;
            output.enum_array[output_enum_array_index] = output_enum_array_item;
        }
        let output_struct_scalar: any = {};
        output_struct_scalar.x = reader.read_float();
        output_struct_scalar.y = reader.read_float();
        output.struct_scalar = output_struct_scalar;
        let output_struct_array_len = reader.read_uint32();
        output.struct_array = new Array(output_struct_array_len);
        for (let output_struct_array_index = 0; output_struct_array_index < output_struct_array_len; ++output_struct_array_index) {
            let output_struct_array_item: any = {};
            output_struct_array_item.x = reader.read_float();
            output_struct_array_item.y = reader.read_float();
            output.struct_array[output_struct_array_index] = output_struct_array_item;
        }
        if (reader.read_uint8() > 0) {
            output.opt_scalar = reader.read_uint8();
        } else {
            output.opt_scalar = undefined;
        }
        if (reader.read_uint8() > 0) {
            let output_opt_enum_temp = reader.read_uint8();
            if (1 <= output_opt_enum_temp && output_opt_enum_temp <= 2) output.opt_enum = output_opt_enum_temp;
            else reader.failed = true;
        } else {
            output.opt_enum = undefined;
        }
        if (reader.read_uint8() > 0) {
            let output_opt_struct: any = {};
            output_opt_struct.x = reader.read_float();
            output_opt_struct.y = reader.read_float();
            output.opt_struct = output_opt_struct;
        } else {
            output.opt_struct = undefined;
        }
        if (reader.failed) return null;
        return output;
    }
    write(buffer?: ArrayBuffer): ArrayBuffer {
        let writer = buffer ? new Writer(buffer) : new Writer();
        writer.write_uint8(this.builtin_scalar);
        writer.write_uint32(this.builtin_array.length);
        for (let this_builtin_array_index = 0; this_builtin_array_index < this.builtin_array.length; ++this_builtin_array_index) {
            let this_builtin_array_item = this.builtin_array[this_builtin_array_index];
            writer.write_uint8(this_builtin_array_item);
        }
        writer.write_uint32(this.string_scalar.length);
        writer.write_string(this.string_scalar);
        writer.write_uint32(this.string_array.length);
        for (let this_string_array_index = 0; this_string_array_index < this.string_array.length; ++this_string_array_index) {
            let this_string_array_item = this.string_array[this_string_array_index];
            writer.write_uint32(this_string_array_item.length);
            writer.write_string(this_string_array_item);
        }
        writer.write_uint8(this.enum_scalar as number);
        writer.write_uint32(this.enum_array.length);
        for (let this_enum_array_index = 0; this_enum_array_index < this.enum_array.length; ++this_enum_array_index) {
            let this_enum_array_item = this.enum_array[this_enum_array_index];
            writer.write_uint8(this_enum_array_item as number);
        }
        writer.write_float(this.struct_scalar.x);
        writer.write_float(this.struct_scalar.y);
        writer.write_uint32(this.struct_array.length);
        for (let this_struct_array_index = 0; this_struct_array_index < this.struct_array.length; ++this_struct_array_index) {
            let this_struct_array_item = this.struct_array[this_struct_array_index];
            writer.write_float(this_struct_array_item.x);
            writer.write_float(this_struct_array_item.y);
        }
        let this_opt_scalar = this.opt_scalar;
        switch (this_opt_scalar) {
            case undefined: case null: writer.write_uint8(0); break;
            default: {
                writer.write_uint8(1);
                writer.write_uint8(this_opt_scalar);
            }
        }
        let this_opt_enum = this.opt_enum;
        switch (this_opt_enum) {
            case undefined: case null: writer.write_uint8(0); break;
            default: {
                writer.write_uint8(1);
                writer.write_uint8(this_opt_enum as number);
            }
        }
        let this_opt_struct = this.opt_struct;
        switch (this_opt_struct) {
            case undefined: case null: writer.write_uint8(0); break;
            default: {
                writer.write_uint8(1);
                writer.write_float(this_opt_struct.x);
                writer.write_float(this_opt_struct.y);
            }
        }
        return writer.finish();
    }
}
".
Proof. vm_compute. reflexivity. Qed.

(** nested_struct_with_opt_impl_gen, ts.rs:1021 *)
Example t_nested_struct_with_opt_impl_gen :
  let position := [
    SField "x" "float" (TBuiltin Float) false false; 
    SField "y" "float" (TBuiltin Float) false false] in
  let entity := [
    SField "uid" "uint32" (TBuiltin Uint32) false false; 
    SField "pos" "Position" (TStruct position) false true] in
  let state := (Export_ "State" [
    SField "id" "uint32" (TBuiltin Uint32) false false; 
    SField "entities" "Entity" (TStruct entity) true false]) in
  gen_impl state NL = Ok "
export class State {
    constructor(
        public id: number,
        public entities: State.Entity[],
    ) {}
    static read(data: ArrayBuffer): State | null {
        let reader = new Reader(data);
        let output = Object.create(State);
        output.id = reader.read_uint32();
        let output_entities_len = reader.read_uint32();
        output.entities = new Array(output_entities_len);
        for (let output_entities_index = 0; output_entities_index < output_entities_len; ++output_entities_index) {
            let output_entities_item: any = {};
            output_entities_item.uid = reader.read_uint32();
            if (reader.read_uint8() > 0) {
                let output_entities_item_pos: any = {};
                output_entities_item_pos.x = reader.read_float();
                output_entities_item_pos.y = reader.read_float();
                output_entities_item.pos = output_entities_item_pos;
            } else {
                output_entities_item.pos = undefined;
            }
            output.entities[output_entities_index] = output_entities_item;
        }
        if (reader.failed) return null;
        return output;
    }
    write(buffer?: ArrayBuffer): ArrayBuffer {
        let writer = buffer ? new Writer(buffer) : new Writer();
        writer.write_uint32(this.id);
        writer.write_uint32(this.entities.length);
        for (let this_entities_index = 0; this_entities_index < this.entities.length; ++this_entities_index) {
            let this_entities_item = this.entities[this_entities_index];
            writer.write_uint32(this_entities_item.uid);
            let this_entities_item_pos = this_entities_item.pos;
            switch (this_entities_item_pos) {
                case undefined: case null: writer.write_uint8(0); break;
                default: {
                    writer.write_uint8(1);
                    writer.write_float(this_entities_item_pos.x);
                    writer.write_float(this_entities_item_pos.y);
                }
            }
        }
        return writer.finish();
    }
}
".
Proof. vm_compute. reflexivity. Qed.
