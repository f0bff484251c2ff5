done("C18","proved",["C18_roundtrip","C18_from_str","C18_verify_exact"])
done("C19","proved",["C19_order","C19_total_order"])
done("C20","proved",["C20_parse_total"])
done("C48","proved",["C48_strict_sound","C48_strict_complete","C48_normal_form"])
done("C49","partial",["C49_lenient_partial","C49_lenient_refuted"],"Finding: a bare digit in the last field is silently dropped.")
