*.vo
*.vok
*.vos
*.glob
*.aux
*.cache
*.d
rocq/Makefile
rocq/Makefile.conf
