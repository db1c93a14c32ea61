-Q theories Verif
theories/Py.v
theories/PyLemmas.v
theories/Model_part.v
theories/Spec_part.v
theories/Proofs_part1.v
theories/Proofs_part2.v
theories/Proofs_part3.v
theories/Model_comm.v
theories/Proofs_comm.v
theories/Proofs_part4.v
theories/Properties_part.v
theories/Model_file.v
theories/Proofs_file.v
theories/Properties_file.v
theories/Scatter.v
theories/Model_label.v
theories/Spec_label.v
theories/Proofs_label.v
theories/Properties_label.v
theories/Model_conn.v
theories/Spec_conn.v
theories/Proofs_conn1.v
theories/Proofs_conn2.v
theories/Proofs_conn3.v
theories/Properties_conn.v
theories/Model_geom.v
theories/Spec_geom.v
theories/Proofs_geom1.v
theories/Proofs_geom2.v
theories/Proofs_geom3.v
theories/Properties_geom.v
theories/Model_halo.v
theories/Spec_halo.v
theories/Proofs_halo1.v
theories/Proofs_halo2.v
theories/Proofs_halo3.v
theories/Properties_halo.v
theories/Model_interp.v
theories/Spec_interp.v
theories/Proofs_interp1.v
theories/Proofs_interp2.v
theories/Proofs_interp3.v
theories/Proofs_interp4.v
theories/Proofs_interp5.v
theories/Proofs_interp6.v
theories/Properties_interp.v
theories/Examples_interp.v
theories/Model_fvm.v
theories/Spec_fvm.v
theories/Proofs_fvm1.v
theories/Proofs_fvm2.v
theories/Spec_lsq.v
theories/Proofs_lsq.v
theories/Properties_lsq.v
theories/Properties_fvm.v
theories/Examples_fvm.v
theories/Model_bc.v
theories/Spec_bc.v
theories/Proofs_bc.v
theories/Proofs_bc2.v
theories/Properties_bc.v
theories/Proofs_bc3.v
theories/Spec_bc3.v
theories/Properties_bc3.v
theories/Examples_bc.v
theories/Model_linsys.v
theories/Spec_linsys.v
theories/Proofs_linsys1.v
theories/Proofs_linsys2.v
theories/Proofs_linsys3.v
theories/Proofs_linsys4.v
theories/Proofs_linsys5.v
theories/Proofs_linsys6.v
theories/Proofs_linsys7.v
theories/Proofs_linsys8.v
theories/Proofs_linsys9.v
theories/Properties_linsys.v
theories/Properties_linsys2.v
theories/Examples_linsys.v
theories/Model_sw.v
theories/Spec_sw.v
theories/Proofs_sw1.v
theories/Proofs_sw2.v
theories/Proofs_sw3.v
theories/Proofs_sw4.v
theories/Proofs_sw5.v
theories/Proofs_sw6.v
theories/Proofs_sw7.v
theories/Proofs_sw8.v
theories/Proofs_sw9.v
theories/Properties_sw.v
theories/Examples_sw.v
theories/Model_streamer.v
theories/Model_periodic.v
theories/Spec_periodic.v
theories/Proofs_periodic.v
theories/Proofs_periodic2.v
theories/Proofs_periodic3.v
theories/Properties_periodic.v
theories/Examples_periodic.v
theories/Spec_streamer.v
theories/Proofs_streamer.v
theories/Proofs_streamer2.v
theories/Properties_streamer.v
theories/Examples_streamer.v
theories/Model_domain.v
theories/Spec_domain.v
theories/Proofs_domain1.v
theories/Proofs_domain2.v
theories/Proofs_domain3.v
theories/Proofs_domain4.v
theories/Properties_domain.v
theories/Examples_domain.v
theories/Model_haloghost.v
theories/Spec_haloghost.v
theories/Proofs_haloghost.v
theories/Properties_haloghost.v
theories/Model_parallel.v
theories/Spec_parallel.v
theories/Proofs_parallel1.v
theories/Proofs_parallel2.v
theories/Proofs_parallel3.v
theories/Proofs_parallel4.v
theories/Proofs_parallel5.v
theories/Proofs_parallel6.v
theories/Properties_parallel.v
theories/Model_run.v
theories/Spec_run.v
theories/Proofs_run1.v
theories/Proofs_run2.v
theories/Proofs_run3.v
theories/Proofs_run4.v
theories/Proofs_run5.v
theories/Proofs_run6.v
theories/Properties_run.v
theories/Spec_run2.v
theories/Model_run2.v
theories/Model_run3.v
theories/Proofs_run7.v
theories/Proofs_run8.v
theories/Proofs_run9.v
theories/Proofs_run10.v
theories/Proofs_run11.v
theories/Proofs_run12.v
theories/Proofs_run13.v
theories/Proofs_run14.v
theories/Proofs_run15.v
theories/Spec_run3.v
theories/Spec_run4.v
theories/Model_poisson.v
theories/Spec_poisson.v
theories/Proofs_poisson1.v
theories/Proofs_poisson2.v
theories/Proofs_poisson3.v
theories/Spec_poisson2.v
theories/Proofs_poisson4.v
theories/Proofs_poisson5.v
theories/Proofs_poisson6.v
theories/Proofs_poisson7.v
theories/Proofs_poisson8.v
theories/Proofs_run16.v
theories/Properties_run2.v
theories/Spec_poisson3.v
theories/Proofs_poisson9.v
theories/Proofs_poisson10.v
theories/Properties_poisson.v
theories/Properties_poisson2.v
theories/Proofs_run17.v
theories/Proofs_run18.v
theories/Proofs_run19.v
theories/Proofs_run20.v
theories/Proofs_run21.v
theories/Proofs_run22.v
theories/Proofs_run23.v
theories/Proofs_run24.v
theories/Proofs_run25.v
theories/Proofs_run26.v
theories/Proofs_run27.v
theories/Proofs_run28.v
theories/Proofs_run29.v
theories/Spec_run5.v
theories/Model_run4.v
theories/Spec_run6.v
theories/Proofs_run30.v
theories/Proofs_run31.v
theories/Proofs_run32.v
theories/Proofs_run33.v
theories/Properties_run4.v
theories/Examples_run4.v
theories/Properties_run3.v
theories/Examples_run3.v
theories/Model_run5.v
theories/Spec_run7.v
theories/Proofs_run34.v
theories/Proofs_run35.v
theories/Proofs_run36.v
theories/Proofs_run37.v
theories/Properties_run5.v
theories/Model_var.v
theories/Spec_var.v
theories/Proofs_var1.v
theories/Properties_var.v
theories/Examples_var.v
theories/Model_petsc.v
theories/Spec_petsc.v
theories/Proofs_petsc1.v
theories/Proofs_petsc2.v
theories/Properties_petsc.v
theories/Examples_petsc.v
theories/Examples_run5.v
theories/Spec_per.v
theories/Proofs_per1.v
theories/Proofs_per2.v
theories/Proofs_per3.v
theories/Proofs_per4.v
theories/Proofs_per5.v
theories/Proofs_per6.v
theories/Proofs_per7.v
theories/Proofs_per8.v
theories/Properties_per.v
theories/Examples_per.v
theories/Model_save.v
theories/Spec_save.v
theories/Proofs_save.v
theories/Properties_save.v
theories/Model_init.v
theories/Spec_init.v
theories/Proofs_init.v
theories/Properties_init.v
theories/Properties_init2.v
theories/Model_run6.v
theories/Spec_run8.v
theories/Proofs_run38.v
theories/Properties_run6.v
theories/Properties_run7.v
theories/Model_run7.v
theories/Spec_run9.v
theories/Proofs_run39.v
theories/Properties_run8.v
theories/Properties_run9.v
theories/Examples_run7.v
theories/Examples_run6.v
theories/Model_gmsh.v
theories/Spec_gmsh.v
theories/Proofs_gmsh.v
theories/Properties_gmsh.v
theories/Properties_gmsh2.v
theories/Proofs_per9.v
theories/Model_per2.v
theories/Properties_per2.v
theories/Examples_per2.v
