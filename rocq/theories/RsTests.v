(** The unit tests of src/lib/gen/rust.rs:357-1197, input and expected text copied by script. *)
From Verif Require Import RsGen.

(** commmon_gen, rust.rs:360 *)
Example rs_commmon_gen : rs_common NL = "
#![allow(dead_code, non_camel_case_types, unused_imports, unused_assignments, clippy::field_reassign_with_default)]
use std::convert::TryFrom;
".
Proof. vm_compute. reflexivity. Qed.

(** simple_struct_gen, rust.rs:375 *)
Example rs_simple_struct_gen : rs_struct_def [SField "x" "float" (TBuiltin Float) false false;
    SField "y" "float" (TBuiltin Float) false false] "Position" NL = "
#[derive(Clone, PartialEq, Debug, Default)]
pub struct Position {
    pub x: f32,
    pub y: f32,
}
".
Proof. vm_compute. reflexivity. Qed.

(** struct_with_optional_gen, rust.rs:410 *)
Example rs_struct_with_optional_gen : rs_struct_def [SField "a" "float" (TBuiltin Float) false true;
    SField "b" "float" (TBuiltin Float) true true;
    SField "c" "float" (TBuiltin Float) false false] "Test" NL = "
#[derive(Clone, PartialEq, Debug, Default)]
pub struct Test {
    pub a: Option<f32>,
    pub b: Option<Vec<f32>>,
    pub c: f32,
}
".
Proof. vm_compute. reflexivity. Qed.

(** enum_gen, rust.rs:452 *)
Example rs_enum_gen : rs_enum_def (Enum U8 [EnumVariant "A" 0; EnumVariant "B" 1]) "Flag" NL = Ok "
#[derive(Clone, Copy, PartialEq, Debug)]
#[repr(u8)]
pub enum Flag {
    A = 1 << 0,
    B = 1 << 1,
}
impl Default for Flag {
    fn default() -> Self {
        Flag::A
    }
}
impl std::convert::TryFrom<u8> for Flag {
    type Error = packet::Error;
    fn try_from(value: u8) -> Result<Self, Self::Error> {
        match value {
            1 => Ok(Flag::A),
            2 => Ok(Flag::B),
            _ => Err(packet::Error::InvalidEnumValue(value as usize, ""Flag""))
        }
    }
}
".
Proof. vm_compute. reflexivity. Qed.

(** complex_struct_gen, rust.rs:491 *)
Example rs_complex_struct_gen : rs_struct_def [SField "builtin_scalar" "uint8" (TBuiltin Uint8) false false;
    SField "builtin_array" "uint8" (TBuiltin Uint8) true false;
    SField "string_scalar" "string" (TBuiltin BString) false false;
    SField "string_array" "string" (TBuiltin BString) true false;
    SField "enum_scalar" "Flag" (TEnum (Enum U8 [])) false false;
    SField "enum_array" "Flag" (TEnum (Enum U8 [])) true false;
    SField "struct_scalar" "Position" (TStruct []) false false;
    SField "struct_array" "Position" (TStruct []) true false] "Test" NL = "
#[derive(Clone, PartialEq, Debug, Default)]
pub struct Test {
    pub builtin_scalar: u8,
    pub builtin_array: Vec<u8>,
    pub string_scalar: String,
    pub string_array: Vec<String>,
    pub enum_scalar: Flag,
    pub enum_array: Vec<Flag>,
    pub struct_scalar: Position,
    pub struct_array: Vec<Position>,
}
".
Proof. vm_compute. reflexivity. Qed.

(** optional_write_gen, rust.rs:583 *)
Example rs_optional_write_gen : rs_write_impl [SField "a" "uint8" (TBuiltin Uint8) false true;
    SField "b" "uint8" (TBuiltin Uint8) true true;
    SField "c" "uint8" (TBuiltin Uint8) false false] "Test" NL = Ok "
pub fn write(writer: &mut packet::writer::Writer, input: &Test) {
    match input.a {
        None => writer.write_uint8(0u8),
        Some(input_a) => {
            writer.write_uint8(1u8);
            writer.write_uint8(input_a);
        }
    }
    match input.b {
        None => writer.write_uint8(0u8),
        Some(input_b) => {
            writer.write_uint8(1u8);
            writer.write_uint32(input_b.len() as u32);
            for input_b_item in input_b.iter() {
                writer.write_uint8(input_b_item);
            }
        }
    }
    writer.write_uint8(input.c);
}
".
Proof. vm_compute. reflexivity. Qed.

(** optional_read_gen, rust.rs:642 *)
Example rs_optional_read_gen : rs_read_impl [SField "a" "uint8" (TBuiltin Uint8) false true;
    SField "b" "uint8" (TBuiltin Uint8) false false] "Test" NL = Ok "
pub fn read(reader: &mut packet::reader::Reader, output: &mut Test) -> Result<(), packet::Error> {
    if reader.read_uint8()? > 0 {
        let mut output_a = u8::default();
        output_a = reader.read_uint8()?;
        output.a = Some(output_a);
    }
    output.b = reader.read_uint8()?;
    Ok(())
}
".
Proof. vm_compute. reflexivity. Qed.

(** nested_soa_write_gen, rust.rs:684 *)
Example rs_nested_soa_write_gen : rs_write_impl [SField "test_a" "TestA" (TStruct [SField "first" "uint8" (TBuiltin Uint8) true false;
    SField "second" "uint8" (TBuiltin Uint8) true false]) true false] "TestB" NL = Ok "
pub fn write(writer: &mut packet::writer::Writer, input: &TestB) {
    writer.write_uint32(input.test_a.len() as u32);
    for input_test_a_item in input.test_a.iter() {
        writer.write_uint32(input_test_a_item.first.len() as u32);
        for input_test_a_item_first_item in input_test_a_item.first.iter() {
            writer.write_uint8(input_test_a_item_first_item);
        }
        writer.write_uint32(input_test_a_item.second.len() as u32);
        for input_test_a_item_second_item in input_test_a_item.second.iter() {
            writer.write_uint8(input_test_a_item_second_item);
        }
    }
}
".
Proof. vm_compute. reflexivity. Qed.

(** nested_soa_read_gen, rust.rs:738 *)
Example rs_nested_soa_read_gen : rs_read_impl [SField "test_a" "TestA" (TStruct [SField "first" "uint8" (TBuiltin Uint8) true false;
    SField "second" "uint8" (TBuiltin Uint8) true false]) true false] "TestB" NL = Ok "
pub fn read(reader: &mut packet::reader::Reader, output: &mut TestB) -> Result<(), packet::Error> {
    let output_test_a_len = reader.read_uint32()? as usize;
    output.test_a.reserve(output_test_a_len);
    for _ in 0..output_test_a_len {
        let mut output_test_a_item = TestA::default();
        let output_test_a_item_first_len = reader.read_uint32()? as usize;
        output_test_a_item.first.reserve(output_test_a_item_first_len);
        for _ in 0..output_test_a_item_first_len {
            let mut output_test_a_item_first_item = u8::default();
            output_test_a_item_first_item = reader.read_uint8()?;
            output_test_a_item.first.push(output_test_a_item_first_item);
        }
        let output_test_a_item_second_len = reader.read_uint32()? as usize;
        output_test_a_item.second.reserve(output_test_a_item_second_len);
        for _ in 0..output_test_a_item_second_len {
            let mut output_test_a_item_second_item = u8::default();
            output_test_a_item_second_item = reader.read_uint8()?;
            output_test_a_item.second.push(output_test_a_item_second_item);
        }
        output.test_a.push(output_test_a_item);
    }
    Ok(())
}
".
Proof. vm_compute. reflexivity. Qed.

(** complex_struct_write_gen, rust.rs:802 *)
Example rs_complex_struct_write_gen : rs_write_impl [SField "builtin_scalar" "uint8" (TBuiltin Uint8) false false;
    SField "builtin_array" "uint8" (TBuiltin Uint8) true false;
    SField "string_scalar" "string" (TBuiltin BString) false false;
    SField "string_array" "string" (TBuiltin BString) true false;
    SField "enum_scalar" "Flag" (TEnum (Enum U8 [EnumVariant "A" 0; EnumVariant "B" 1])) false false;
    SField "enum_array" "Flag" (TEnum (Enum U8 [EnumVariant "A" 0; EnumVariant "B" 1])) true false;
    SField "struct_scalar" "Position" (TStruct [SField "x" "float" (TBuiltin Float) false false;
    SField "y" "float" (TBuiltin Float) false false]) false false;
    SField "struct_array" "Position" (TStruct [SField "x" "float" (TBuiltin Float) false false;
    SField "y" "float" (TBuiltin Float) false false]) true false;
    SField "opt_scalar" "uint8" (TBuiltin Uint8) false true;
    SField "opt_enum" "Flag" (TEnum (Enum U8 [EnumVariant "A" 0; EnumVariant "B" 1])) false true;
    SField "opt_struct" "Position" (TStruct [SField "x" "float" (TBuiltin Float) false false;
    SField "y" "float" (TBuiltin Float) false false]) false true] "Test" NL = Ok "
pub fn write(writer: &mut packet::writer::Writer, input: &Test) {
    writer.write_uint8(input.builtin_scalar);
    writer.write_uint32(input.builtin_array.len() as u32);
    for input_builtin_array_item in input.builtin_array.iter() {
        writer.write_uint8(input_builtin_array_item);
    }
    writer.write_uint32(input.string_scalar.len() as u32);
    writer.write_string(&input.string_scalar);
    writer.write_uint32(input.string_array.len() as u32);
    for input_string_array_item in input.string_array.iter() {
        writer.write_uint32(input_string_array_item.len() as u32);
        writer.write_string(&input_string_array_item);
    }
    writer.write_uint8(input.enum_scalar as u8);
    writer.write_uint32(input.enum_array.len() as u32);
    for input_enum_array_item in input.enum_array.iter() {
        writer.write_uint8(input_enum_array_item as u8);
    }
    writer.write_float(input.struct_scalar.x);
    writer.write_float(input.struct_scalar.y);
    writer.write_uint32(input.struct_array.len() as u32);
    for input_struct_array_item in input.struct_array.iter() {
        writer.write_float(input_struct_array_item.x);
        writer.write_float(input_struct_array_item.y);
    }
    match input.opt_scalar {
        None => writer.write_uint8(0u8),
        Some(input_opt_scalar) => {
            writer.write_uint8(1u8);
            writer.write_uint8(input_opt_scalar);
        }
    }
    match input.opt_enum {
        None => writer.write_uint8(0u8),
        Some(input_opt_enum) => {
            writer.write_uint8(1u8);
            writer.write_uint8(input_opt_enum as u8);
        }
    }
    match &input.opt_struct {
        None => writer.write_uint8(0u8),
        Some(input_opt_struct) => {
            writer.write_uint8(1u8);
            writer.write_float(input_opt_struct.x);
            writer.write_float(input_opt_struct.y);
        }
    }
}
".
Proof. vm_compute. reflexivity. Qed.

(** complex_struct_read_gen, rust.rs:957 *)
Example rs_complex_struct_read_gen : rs_read_impl [SField "builtin_scalar" "uint8" (TBuiltin Uint8) false false;
    SField "builtin_array" "uint8" (TBuiltin Uint8) true false;
    SField "string_scalar" "string" (TBuiltin BString) false false;
    SField "string_array" "string" (TBuiltin BString) true false;
    SField "enum_scalar" "Flag" (TEnum (Enum U8 [EnumVariant "A" 0; EnumVariant "B" 1])) false false;
    SField "enum_array" "Flag" (TEnum (Enum U8 [EnumVariant "A" 0; EnumVariant "B" 1])) true false;
    SField "struct_scalar" "Position" (TStruct [SField "x" "float" (TBuiltin Float) false false;
    SField "y" "float" (TBuiltin Float) false false]) false false;
    SField "struct_array" "Position" (TStruct [SField "x" "float" (TBuiltin Float) false false;
    SField "y" "float" (TBuiltin Float) false false]) true false;
    SField "opt_scalar" "uint8" (TBuiltin Uint8) false true;
    SField "opt_enum" "Flag" (TEnum (Enum U8 [EnumVariant "A" 0; EnumVariant "B" 1])) false true;
    SField "opt_struct" "Position" (TStruct [SField "x" "float" (TBuiltin Float) false false;
    SField "y" "float" (TBuiltin Float) false false]) false true] "Test" NL = Ok "
pub fn read(reader: &mut packet::reader::Reader, output: &mut Test) -> Result<(), packet::Error> {
    output.builtin_scalar = reader.read_uint8()?;
    let output_builtin_array_len = reader.read_uint32()? as usize;
    output.builtin_array.reserve(output_builtin_array_len);
    for _ in 0..output_builtin_array_len {
        let mut output_builtin_array_item = u8::default();
        output_builtin_array_item = reader.read_uint8()?;
        output.builtin_array.push(output_builtin_array_item);
    }
    let output_string_scalar_len = reader.read_uint32()? as usize;
    output.string_scalar = reader.read_string(output_string_scalar_len)?;
    let output_string_array_len = reader.read_uint32()? as usize;
    output.string_array.reserve(output_string_array_len);
    for _ in 0..output_string_array_len {
        let mut output_string_array_item = String::default();
        let output_string_array_item_len = reader.read_uint32()? as usize;
        output_string_array_item = reader.read_string(output_string_array_item_len)?;
        output.string_array.push(output_string_array_item);
    }
    output.enum_scalar = Flag::try_from(reader.read_uint8()?)?;
    let output_enum_array_len = reader.read_uint32()? as usize;
    output.enum_array.reserve(output_enum_array_len);
    for _ in 0..output_enum_array_len {
        let mut output_enum_array_item = Flag::default();
        output_enum_array_item = Flag::try_from(reader.read_uint8()?)?;
        output.enum_array.push(output_enum_array_item);
    }
    output.struct_scalar.x = reader.read_float()?;
    output.struct_scalar.y = reader.read_float()?;
    let output_struct_array_len = reader.read_uint32()? as usize;
    output.struct_array.reserve(output_struct_array_len);
    for _ in 0..output_struct_array_len {
        let mut output_struct_array_item = Position::default();
        output_struct_array_item.x = reader.read_float()?;
        output_struct_array_item.y = reader.read_float()?;
        output.struct_array.push(output_struct_array_item);
    }
    if reader.read_uint8()? > 0 {
        let mut output_opt_scalar = u8::default();
        output_opt_scalar = reader.read_uint8()?;
        output.opt_scalar = Some(output_opt_scalar);
    }
    if reader.read_uint8()? > 0 {
        let mut output_opt_enum = Flag::default();
        output_opt_enum = Flag::try_from(reader.read_uint8()?)?;
        output.opt_enum = Some(output_opt_enum);
    }
    if reader.read_uint8()? > 0 {
        let mut output_opt_struct = Position::default();
        output_opt_struct.x = reader.read_float()?;
        output_opt_struct.y = reader.read_float()?;
        output.opt_struct = Some(output_opt_struct);
    }
    Ok(())
}
".
Proof. vm_compute. reflexivity. Qed.

(** nested_write_opt_gen, rust.rs:1119 *)
Example rs_nested_write_opt_gen : rs_write_impl [SField "id" "uint32" (TBuiltin Uint32) false false;
    SField "entities" "Entity" (TStruct [SField "uid" "uint32" (TBuiltin Uint32) false false;
    SField "pos" "Position" (TStruct [SField "x" "float" (TBuiltin Float) false false;
    SField "y" "float" (TBuiltin Float) false false]) false true]) true false] "State" NL = Ok "
pub fn write(writer: &mut packet::writer::Writer, input: &State) {
    writer.write_uint32(input.id);
    writer.write_uint32(input.entities.len() as u32);
    for input_entities_item in input.entities.iter() {
        writer.write_uint32(input_entities_item.uid);
        match &input_entities_item.pos {
            None => writer.write_uint8(0u8),
            Some(input_entities_item_pos) => {
                writer.write_uint8(1u8);
                writer.write_float(input_entities_item_pos.x);
                writer.write_float(input_entities_item_pos.y);
            }
        }
    }
}
".
Proof. vm_compute. reflexivity. Qed.
