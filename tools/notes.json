{
 "C02": {"note": "Includes the behaviour at zero: no exception, NaN components."},
 "C04": {"note": "Half turns yield NaN; stated and proved as part of the property."},
 "C06": {"note": "Includes the dead zone near w = 1 in which the axis is lost (C06_small_rotations_vanish, C06_roundtrip_refuted)."},
 "C19": {"note": "For rot = -1 the axis of a pure translation is reversed (C19_translation_direction_refuted)."},
 "C21": {"note": "__eq__ is reflexive, not symmetric, not transitive, and distinguishes dq from -dq."}
}
