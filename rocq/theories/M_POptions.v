(** The available fields of a user parset: nenupy/observation/parset_user_options.json,
    as loaded by nenupy/observation/__init__.py 8-12. *)
From Coq Require Import String List.
Import ListNotations.
Local Open Scope string_scope.

(** One field: its name, whether it is always written, its default value and the
    regular expression of its syntax if any. *)
Record option_entry := mkOpt {
  o_key : string;
  o_required : bool;
  o_value : string;
  o_syntax : option string }.

(** nenupy/observation/parset_user_options.json, from line 2. *)
Definition observation_options : list option_entry := [
  mkOpt "contactName" true "contact_name"
    (Some "^\S+$");
  mkOpt "name" true "observation_name"
    (Some "^\S{1,40}$");
  mkOpt "title" false "observation_title"
    (None);
  mkOpt "contactEmail" true "contact_email"
    (Some "^([a-zA-Z0-9_\-\.]+)@([a-zA-Z0-9_\-\.]+)\.([a-zA-Z]{2,5}){1,25}(,[ ]{0,1}([a-zA-Z0-9_\-\.]+)@([a-zA-Z0-9_\-\.]+)\.([a-zA-Z]{2,5}){1,25})*$");
  mkOpt "nrAnabeams" false "1"
    (Some "\d+");
  mkOpt "nrBeams" false "0"
    (Some "\d+");
  mkOpt "nrPhaseCenters" false "0"
    (Some "\d+");
  mkOpt "calibration" false "calibration_file"
    (None);
  mkOpt "corAzel" false "enable"
    (Some "(?i)^(enable|disable|polys_2022|grid)$");
  mkOpt "topic" true "key_project_name"
    (None);
  mkOpt "parsetVersion" false "1.0"
    (None)].

(** nenupy/observation/parset_user_options.json, from line 55. *)
Definition output_options : list option_entry := [
  mkOpt "sst_userfile" false "false"
    (Some "(?i)^(true)|(false)$");
  mkOpt "bst_userfile" false "false"
    (Some "(?i)^(true)|(false)$");
  mkOpt "xst_userfile" false "false"
    (Some "(?i)^(true)|(false)$");
  mkOpt "xst_NrList" false "1"
    (None);
  mkOpt "xst_sbList" false "[0,1,2,3,4,5,6,7,8,9,10,11,12,13,14,15]"
    (Some "^\[([0-9]|1[0-9])(,[0-9]|,1[0-5])*\]$");
  mkOpt "xst_sbDuration" false "#"
    (None);
  mkOpt "xst_sbIncr" false "0"
    (Some "\d+");
  mkOpt "hd_bitMode" false "8"
    (Some "^((8)|(16))$");
  mkOpt "hd_receivers" false "[undysputed]"
    (Some "^\[[a-z]+(,[a-z]+)*\]$");
  mkOpt "nri_receivers" false "false"
    (Some "(?i)^(true)|(false)$");
  mkOpt "nri_bitMode" false "8"
    (Some "^((4)|(8)|(16))$");
  mkOpt "nri_subbandList" false "[50,51,52,53,194,195,196,197,242,266,290,314,338,362,386,410]"
    (Some "^\[([0-9]|[0-9][0-9]|[0-4][0-9][0-9]|50[0-9]|51[0-1])(,[0-9]|,[0-9][0-9]|,[0-4][0-9][0-9]|,50[0-9]|,51[0-1])*\]$");
  mkOpt "nri_channelization" false "64"
    (Some "^([1-9])|([1-5][0-9])|(6[0-4])$");
  mkOpt "nri_attenuationlane0" false "0"
    (None);
  mkOpt "nri_attenuationlane1" false "0"
    (None);
  mkOpt "nri_dumpTime" false "1"
    (Some "^((0.5)|(1)|(2)$");
  mkOpt "nri_correctbandPass" false "enable"
    (Some "(?i)^enable|disable$")].

(** nenupy/observation/parset_user_options.json, from line 138. *)
Definition anabeam_options : list option_entry := [
  mkOpt "target" true "analog_beam_name"
    (Some "^\S*$");
  mkOpt "simbadSearch" false "source_name"
    (None);
  mkOpt "psrcatSearch" false "psr_name"
    (None);
  mkOpt "trackingType" true "tracking"
    (Some "(?i)^tracking|pointingto$");
  mkOpt "directionType" false "J2000"
    (Some "(?i)^j2000|azelgeo|mercury|venus|mars|jupiter|saturn|uranus|neptune|sun|moon$");
  mkOpt "transitDate" false "2021-01-01T00:00:00Z"
    (Some "^20[1-2][0-9]-(0[1-9]|1[0-2])-(0[1-9]|[1-2][0-9]|3[0-1])T(0[0-9]|1[0-9]|2[0-4]):[0-5][0-9]:[0-5][0-9]Z$");
  mkOpt "decal_transit" false "0"
    (Some "^(-|\+)*\d+(\.\d*)?(h|m|s)$");
  mkOpt "azimuth" false "0"
    (Some "^\d{1,3}(\.\d*)?$");
  mkOpt "elevation" false "90"
    (Some "^(-|\+)?\d{1,2}(\.\d*)?$");
  mkOpt "ra" false "right_ascension"
    (Some "^'(-|\+)?((\d+(\.\d*)?)|(\d{2}:\d{2}:\d{2}(\.\d*)?))'$");
  mkOpt "dec" false "declination"
    (Some "^'(-|\+)?((\d+(\.\d*)?)|(\d{2}:\d{2}:\d{2}(\.\d*)?))'$");
  mkOpt "startHA" false "-4h"
    (Some "^(-|\+)*\d+(\.\d*)?(h|m|s)$");
  mkOpt "stopHA" false "4h"
    (Some "^(-|\+)*\d+(\.\d*)?(h|m|s)$");
  mkOpt "startTime" true "2021-01-01T00:00:00Z"
    (Some "^20[1-2][0-9]-(0[1-9]|1[0-2])-(0[1-9]|[1-2][0-9]|3[0-1])T(0[0-9]|1[0-9]|2[0-4]):[0-5][0-9]:[0-5][0-9]Z$");
  mkOpt "duration" true "60s"
    (Some "^\d+[smh]$");
  mkOpt "antState" false "ON"
    (Some "(?i)^(ON|OFF)$");
  mkOpt "antList" false "[1,2,3,4,5,6,7,8,9,10,11,12,13,14,15,16,17,18,19]"
    (Some "^\[(?!.*\b(\d+)\b.*\b\1\b)(0?[1-9]|1[0-9])(,(0?\d|1[0-9]))*\]$");
  mkOpt "maList" false "[0..95]"
    (Some "^\[(\d|[1-8]\d|9[0-5]|10[0-7])(,(\d|[1-8]\d|9[0-5]|10[0-7])|\.\.(\d|[1-8]\d|9[0-5]|10[0-7])(?=(,|\])))*\]$");
  mkOpt "attList" false "attenuation_list"
    (None);
  mkOpt "filterStart" false "3"
    (None);
  mkOpt "filter" false "[3]"
    (None);
  mkOpt "filterTime" false "filter_time"
    (None);
  mkOpt "beamSquint" false "enable"
    (Some "(?i)^enable|disable$");
  mkOpt "optFrq" false "beamsquint_frequency"
    (Some "^[1-8]0$");
  mkOpt "azelFile" false "My_AzEl_File.csv"
    (None);
  mkOpt "corAzel" false "default"
    (None)].

(** nenupy/observation/parset_user_options.json, from line 262. *)
Definition beam_options : list option_entry := [
  mkOpt "target" true "numerical_beam_name"
    (Some "^\S*$");
  mkOpt "simbadSearch" false "source_name"
    (None);
  mkOpt "psrcatSearch" false "psr_name"
    (None);
  mkOpt "trackingType" false "tracking"
    (Some "(?i)^tracking|pointingto$");
  mkOpt "directionType" false "J2000"
    (None);
  mkOpt "transitDate" false "2021-01-01T00:00:00Z"
    (Some "^20[1-2][0-9]-(0[1-9]|1[0-2])-(0[1-9]|[1-2][0-9]|3[0-1])T(0[0-9]|1[0-9]|2[0-4]):[0-5][0-9]:[0-5][0-9]Z$");
  mkOpt "decal_transit" false "0"
    (Some "^(-|\+)*\d+(\.\d*)?(h|m|s)$");
  mkOpt "azimuth" false "0"
    (Some "^\d{1,3}(\.\d*)?$");
  mkOpt "elevation" false "90"
    (Some "^(-|\+)?\d{1,2}(\.\d*)?$");
  mkOpt "ra" false "right_ascension"
    (Some "^'(-|\+)?((\d+(\.\d*)?)|(\d{2}:\d{2}:\d{2}(\.\d*)?))'$");
  mkOpt "dec" false "declination"
    (Some "^'(-|\+)?((\d+(\.\d*)?)|(\d{2}:\d{2}:\d{2}(\.\d*)?))'$");
  mkOpt "startHA" false "-4h"
    (Some "^(-|\+)*\d+(\.\d*)?(h|m|s)$");
  mkOpt "stopHA" false "4h"
    (Some "^(-|\+)*\d+(\.\d*)?(h|m|s)$");
  mkOpt "startTime" false "2021-01-01T00:00:00Z"
    (Some "^20[1-2][0-9]-(0[1-9]|1[0-2])-(0[1-9]|[1-2][0-9]|3[0-1])T(0[0-9]|1[0-9]|2[0-4]):[0-5][0-9]:[0-5][0-9]Z$");
  mkOpt "duration" false ""
    (Some "^\d+[smh]$");
  mkOpt "parameters" false "parameters"
    (Some "^(\'.+\')|("".+"")|(.+)$");
  mkOpt "noBeam" false "0"
    (None);
  mkOpt "toDo" true "tbd"
    (Some "^(pulsar)|(dynamicspectrum)|(waveform)|(none)|(tbd)$");
  mkOpt "subbandList" false "[41..451]"
    (Some "^\[(\d{1,2}|[0-4]\d{2}|50\d|51[0-1])(,([1-9]|\d{2}|[0-4]\d{2}|50\d|51[0-1])|\.\.([1-9]|\d{2}|[0-4]\d{2}|50\d|51[0-1])(?=(,|\])))*\]$");
  mkOpt "subbandFrq" false "[8.0-88.0]"
    (Some "^\[\d{1,2}(\.\d*)?((,\d{1,2}(\.\d*)?)|(-\d{1,2}(\.\d*)?(?=(,|\]))))*\]$");
  mkOpt "subbandListLoop" false "sb_list_loop"
    (None);
  mkOpt "subbandFrqLoop" false "sb_freq_loop"
    (None);
  mkOpt "useParentPointing" true "false"
    (Some "^(true)|(false)$");
  mkOpt "decal_az" false "0.0"
    (Some "^(-|\+)?\d{1,3}(\.\d*)?$");
  mkOpt "decal_el" false "0.0"
    (Some "^(-|\+)?\d{1,2}(\.\d*)?$");
  mkOpt "corAzel" false "default"
    (None)].

(** nenupy/observation/parset_user_options.json, from line 387. *)
Definition phasecenter_options : list option_entry := [
  mkOpt "target" true "numerical_beam_name"
    (Some "^\S*$");
  mkOpt "simbadSearch" false "source_name"
    (None);
  mkOpt "psrcatSearch" false "psr_name"
    (None);
  mkOpt "trackingType" false "tracking"
    (Some "(?i)^tracking|pointingto$");
  mkOpt "directionType" false "J2000"
    (None);
  mkOpt "transitDate" false "2021-01-01T00:00:00Z"
    (Some "^20[1-2][0-9]-(0[1-9]|1[0-2])-(0[1-9]|[1-2][0-9]|3[0-1])T(0[0-9]|1[0-9]|2[0-4]):[0-5][0-9]:[0-5][0-9]Z$");
  mkOpt "decal_transit" false "0"
    (Some "^(-|\+)*\d+(\.\d*)?(h|m|s)$");
  mkOpt "ra" false "right_ascension"
    (Some "^'(-|\+)?((\d+(\.\d*)?)|(\d{2}:\d{2}:\d{2}(\.\d*)?))'$");
  mkOpt "dec" false "declination"
    (Some "^'(-|\+)?((\d+(\.\d*)?)|(\d{2}:\d{2}:\d{2}(\.\d*)?))'$");
  mkOpt "startHA" false "-4h"
    (Some "^(-|\+)*\d+(\.\d*)?(h|m|s)$");
  mkOpt "stopHA" false "4h"
    (Some "^(-|\+)*\d+(\.\d*)?(h|m|s)$");
  mkOpt "startTime" false "2021-01-01T00:00:00Z"
    (Some "^20[1-2][0-9]-(0[1-9]|1[0-2])-(0[1-9]|[1-2][0-9]|3[0-1])T(0[0-9]|1[0-9]|2[0-4]):[0-5][0-9]:[0-5][0-9]Z$");
  mkOpt "duration" false ""
    (Some "^\d+[smh]$");
  mkOpt "parameters" false "parameters"
    (Some "^(\'.+\')|("".+"")|(.+)$");
  mkOpt "noBeam" false "0"
    (None);
  mkOpt "toDo" true "nickel"
    (Some "^nickel$");
  mkOpt "subbandList" false "[41..451]"
    (Some "^\[(\d{1,2}|[0-4]\d{2}|50\d|51[0-1])(,([1-9]|\d{2}|[0-4]\d{2}|50\d|51[0-1])|\.\.([1-9]|\d{2}|[0-4]\d{2}|50\d|51[0-1])(?=(,|\])))*\]$");
  mkOpt "subbandFrq" false "[8.0-88.0]"
    (Some "^\[\d{1,2}(\.\d*)?((,\d{1,2}(\.\d*)?)|(-\d{1,2}(\.\d*)?(?=(,|\]))))*\]$");
  mkOpt "useParentPointing" true "false"
    (Some "^(true)|(false)$")].

